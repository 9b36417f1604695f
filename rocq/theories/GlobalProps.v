(** * Which global values are reported (C28), and which witness is chosen (C31) *)
From Verif Require Import Base StM Core HashExists ContainerModel PIndexModel PIndexSpec PIndexProofs.
From Verif Require Import StateModel StateSpec GlobalSpec StateProofs StateProps.
From Verif Require Import Ser.
From Coq Require Import Sorted.
Local Open Scope N_scope.

Section Falling.
Context {OG : OrdKey GlobalOut}.
Definition falling : list GlobalOut -> Prop := StronglySorted (fun a b => cmp b a = Lt).

Lemma filter_map_forall2 {A B} (f : A -> option B) (R : A -> B -> Prop) l :
  (forall a, In a l -> exists b, f a = Some b /\ R a b) -> Forall2 R l (filter_map f l).
Proof.
  induction l as [|a l IH]; intros Hf; simpl; [constructor|]. destruct (Hf a (or_introl eq_refl)) as (b & -> & Hr).
  constructor; [exact Hr|]. apply IH. intros x Hx. apply Hf. right; exact Hx.
Qed.
Lemma firstn_forall2 {A B} (R : A -> B -> Prop) n l l' : Forall2 R l l' -> Forall2 R (firstn n l) (firstn n l').
Proof. intros F. revert n. induction F; intros [|n]; simpl; constructor; auto. Qed.
Lemma falling_snoc l x : falling l -> (forall y, In y l -> cmp x y = Lt) -> falling (l ++ [x]).
Proof.
  intros Hs. induction Hs as [|b l Hs IH Hf]; intros Hx; simpl; [repeat constructor|]. constructor.
  - apply IH. intros y Hy. apply Hx. right; exact Hy.
  - apply Forall_app. split; [assumption|]. constructor; [|constructor]. apply Hx. left; reflexivity.
Qed.
Lemma falling_rev {V} (m : omap GlobalOut V) : msorted m -> falling (map fst (rev m)).
Proof.
  induction m as [|[k v] m IH]; intros S; [constructor|]. apply msorted_inv in S. destruct S as [S F].
  simpl. rewrite map_app. apply falling_snoc; [apply IH, S|]. intros y Hy. rewrite map_rev in Hy. apply in_rev, in_map_iff in Hy.
  destruct Hy as (p & <- & Hp). rewrite Forall_forall in F. exact (F p Hp).
Qed.
Lemma falling_app l l' : falling (l ++ l') -> falling l /\ forall a b, In a l -> In b l' -> cmp b a = Lt.
Proof.
  induction l as [|x l IH]; simpl; intros Hs; [split; [constructor|intros a b []]|].
  apply StronglySorted_inv in Hs. destruct Hs as [Hs Hf]. destruct (IH Hs) as [I1 I2].
  apply Forall_app in Hf. destruct Hf as [F1 F2]. split; [constructor; assumption|].
  intros a b [<-|Ha] Hb; [rewrite Forall_forall in F2; apply F2, Hb|apply I2; assumption].
Qed.

(** The values reported, with their places, fall in the order of places; what is stored and
    not reported stands below all of them, and then there are as many as allowed. *)
Lemma global_values_last s cid c ty l : swf s -> contract_state s cid = Ok c -> global_values c ty = Some l ->
  exists limit top, sstates s (SFLimit cid ty limit) /\
    Forall2 (fun p x => snd x = snd p /\ placed s (fst p) (fst x)) top l /\ falling (map fst top) /\
    (forall go d, In (go, d) top -> sstates s (SFGlobal cid ty go d)) /\
    forall go d, sstates s (SFGlobal cid ty go d) -> In (go, d) top \/
      len l = limit /\ forall p, In p top -> cmp go (fst p) = Lt.
Proof.
  intros W E. unfold global_values. destruct (mget ty (cs_global (mc_state c))) as [g|] eqn:Eg; [|discriminate].
  intros El. apply Some_inj in El. pose proof (contract_state_inv _ _ _ E) as [Ec Ef].
  destruct (swf_cs _ W _ _ Ec) as [_ Sg]. specialize (Sg _ _ Eg).
  assert (HK : forall go d, In (go, d) (mg_known g) <-> sstates s (SFGlobal cid ty go d)).
  { intros go d. simpl. split.
    - intros Hin. apply In_mget in Hin; [|exact Sg]. exists (mc_state c), g. auto.
    - intros (cs & g' & Hc & Hg & Hd). rewrite Ec in Hc. apply Some_inj in Hc. subst cs.
      rewrite Eg in Hg. apply Some_inj in Hg. subst g'. apply mget_In, Hd. }
  set (f := fun p : GlobalOut * N => match global_ord (mc_filter c) (fst p) with
                                     | Some ord => Some (ord, snd p) | None => None end) in *.
  assert (F : Forall2 (fun (p : GlobalOut * N) (x : GlobalOrd * N) => snd x = snd p /\ placed s (fst p) (fst x))
                (rev (mg_known g)) (filter_map f (rev (mg_known g)))).
  { apply filter_map_forall2. intros [go d] Hp. apply in_rev in Hp. apply In_mget in Hp; [|exact Sg].
    destruct (global_ord_spec _ _ _ _ _ _ _ W E Eg Hp) as (ord & Ho & Hpl).
    exists (ord, d). unfold f. cbn [fst snd]. rewrite Ho. auto. }
  set (n := N.to_nat (mg_limit g)) in *.
  pose proof (falling_rev _ Sg) as FR. rewrite <- (firstn_skipn n (rev (mg_known g))), map_app in FR.
  apply falling_app in FR. destruct FR as [FR FB].
  exists (mg_limit g), (firstn n (rev (mg_known g))). split; [exists (mc_state c), g; auto|].
  pose proof (firstn_forall2 _ n _ _ F) as F'. rewrite El in F'. split; [exact F'|]. split; [exact FR|]. split.
  - intros go d Hp. apply HK, in_rev. rewrite <- (firstn_skipn n (rev (mg_known g))). apply in_or_app. left; exact Hp.
  - intros go d Hs. apply HK, in_rev in Hs. rewrite <- (firstn_skipn n (rev (mg_known g))) in Hs. apply in_app_or in Hs.
    destruct Hs as [Hs|Hs]; [left; exact Hs|right]. split.
    + assert (L : length (firstn n (rev (mg_known g))) = length l) by (clear -F'; induction F'; simpl; congruence). rewrite firstn_length in L.
      assert (n < length (rev (mg_known g)))%nat.
      { destruct (Nat.lt_ge_cases n (length (rev (mg_known g)))) as [X|X]; [exact X|].
        rewrite skipn_all2 in Hs by exact X. destruct Hs. }
      unfold len. rewrite <- L. unfold n in *. lia.
    + intros p Hp. apply FB; [apply in_map, Hp|]. apply (in_map fst _ (go, d)), Hs.
Qed.
End Falling.

(** The values reported are in the falling order of their places (operation, number), and
    the values of imported operations which are not reported have lower places than all of
    those: if the schema allows fewer than there are, the last ones are kept. *)
Theorem C28_last : forall (OG : OrdKey GlobalOut) H history cid c ty l,
  sall_succeed H ms_empty history ->
  contract_state (state_after H history) cid = Ok c -> global_values c ty = Some l ->
  exists limit places,
    (exists call r, In (StConsignment call r) history /\ cid = op_id H (c_genesis call) /\
       In (ty, limit) (sch_globals (c_schema call))) /\
    Forall2 (fun go x => placed (state_after H history) go (fst x) /\
               exists call ow o, In call history /\ imports H call cid ow o /\ shows H o ow ty go (snd x)) places l /\
    StronglySorted (fun a b => cmp b a = Lt) places /\
    forall call ow o go d, In call history -> imports H call cid ow o -> shows H o ow ty go d ->
      In go places \/ len l = limit /\ forall p, In p places -> cmp go p = Lt.
Proof.
  intros OG H history cid c ty l Hok E El.
  destruct (global_values_last _ _ _ _ _ (safter_wf H history) E El) as (limit & top & Hlim & F & Fa & Hin & Hout).
  exists limit, (map fst top). split; [|split; [|split; [exact Fa|]]].
  - apply safter_sound in Hlim. destruct Hlim as (call & Hc & cons & r & -> & H1 & H2). eauto.
  - assert (G : forall top l, Forall2 (fun (p : GlobalOut * N) (x : GlobalOrd * N) => snd x = snd p /\ placed (state_after H history) (fst p) (fst x)) top l ->
             (forall go d, In (go, d) top -> sstates (state_after H history) (SFGlobal cid ty go d)) ->
             Forall2 (fun go (x : GlobalOrd * N) => placed (state_after H history) go (fst x) /\
               exists call ow o, In call history /\ imports H call cid ow o /\ shows H o ow ty go (snd x)) (map fst top) l).
    { clear. intros top l F. induction F as [|[go d] [ord d'] top l [E1 E2] F IH]; intros Hin; [constructor|].
      cbn [fst snd map] in *. subst d'. constructor; [|apply IH; intros; apply Hin; right; assumption].
      split; [exact E2|]. specialize (Hin go d (or_introl eq_refl)). apply safter_sound in Hin.
      destruct Hin as (call & Hc & ow & o & Hi & Hsh). cbn [snd]. exists call, ow, o. auto. }
    apply G; assumption.
  - intros call ow o go d Hc Hi Hsh.
    destruct (safter_complete H history call (SFGlobal cid ty go d) Hok Hc) as (d' & Hs); [simpl; eauto|].
    destruct (Hout _ _ Hs) as [Hp|[Hl Hp]]; [left; apply (in_map fst _ (go, d')), Hp|right].
    split; [exact Hl|]. intros p Hpp. apply in_map_iff in Hpp. destruct Hpp as (q & <- & Hq). exact (Hp q Hq).
Qed.
Print Assumptions C28_last.

(** A genesis with three values where two are allowed *)
Definition gl_genesis : Operation := st_op OpGenesis [(7, [41; 42; 43])] [].
Definition gl_cons : Consignment :=
  {| c_transfer := false; c_terminals := []; c_genesis := gl_genesis; c_extensions := []; c_bundles := [];
     c_schema := {| sch_id := 0; sch_globals := [(7, 2)]; sch_libs := []; sch_types := [] |};
     c_ifaces := []; c_supplements := []; c_types := []; c_scripts := []; c_attachments := []; c_signatures := [] |}.
Example C28_last_example : let history := [StConsignment gl_cons st_pending] in
  sall_succeed (OG := ex_ord) bit_hashes ms_empty history /\
  exists c, contract_state (state_after (OG := ex_ord) bit_hashes history) (op_id bit_hashes gl_genesis) = Ok c /\
    global_values c 7 = Some [(GOGenesis 2, 43); (GOGenesis 1, 42)].
Proof.
  split.
  - split; [|exact Logic.I]. eexists. vm_compute. reflexivity.
  - eexists. split; vm_compute; reflexivity.
Qed.

(** ** C75 *)

Lemma lower_spec a b : cmp (OrdKey := OrdGlobalOut) a b = Lt <-> lower a b.
Proof.
  destruct a as [o n i w], b as [o' n' i' w']. unfold lower. cbn [go_op go_nonce go_index go_witness].
  change (prod_cmp (o, (n, (i, opw_key w))) (o', (n', (i', opw_key w'))) = Lt <->
    o < o' \/ o = o' /\ (n < n' \/ n = n' /\ (i < i' \/ i = i' /\ cmp (opw_key w) (opw_key w') = Lt))).
  unfold prod_cmp at 1. cbn [fst snd cmp OrdN].
  destruct (N.compare_spec o o') as [E|E|E]; [subst|split; [auto 10|reflexivity]|split; [discriminate|lia]].
  change (cmp (n, (i, opw_key w)) (n', (i', opw_key w'))) with (prod_cmp (n, (i, opw_key w)) (n', (i', opw_key w'))).
  unfold prod_cmp at 1. cbn [fst snd cmp OrdN].
  destruct (N.compare_spec n n') as [E|E|E]; [subst|split; [auto 10|reflexivity]|split; [discriminate|lia]].
  change (cmp (i, opw_key w) (i', opw_key w')) with (prod_cmp (i, opw_key w) (i', opw_key w')).
  unfold prod_cmp at 1. cbn [fst snd cmp OrdN].
  destruct (N.compare_spec i i') as [E|E|E]; [subst|split; [auto 10|reflexivity]|split; [discriminate|lia]].
  split; [intros X; do 3 (right; split; [reflexivity|]); exact X|intros [X|[_ [X|[_ [X|[_ X]]]]]]; try lia; exact X].
Qed.

(** The full property: the value of an operation mined later is reported if that of an
    operation mined earlier is, and comes before it *)
Definition latest_first : Prop := forall H history cid c ty l,
  collision_free H -> history_sorted H history -> sall_succeed (OG := OrdGlobalOut) H ms_empty history ->
  let s := state_after (OG := OrdGlobalOut) H history in
  contract_state s cid = Ok c -> global_values c ty = Some l ->
  forall call ow o go d ord call' ow' o' go' d' ord',
    In call history -> imports H call cid ow o -> shows H o ow ty go d -> placed s go ord ->
    In call' history -> imports H call' cid ow' o' -> shows H o' ow' ty go' d' -> placed s go' ord' ->
    mined_before s ow ow' -> In (ord, d) l -> reported_after l (ord', d') (ord, d).

(** Two transitions, the first mined in block 100 and the second in block 200; the schema
    allows [limit] values *)
Definition gl_tr (d : N) : Operation := st_op OpTransition [(7, [d])] [].
Definition gl_b (d : N) : Bundle :=
  let id := op_id bit_hashes (gl_tr d) in
  {| b_method := OpretFirst; b_inputs := [(0, id)]; b_known := [(id, gl_tr d)] |}.
Definition gl_limited (limit : N) : Consignment :=
  {| c_transfer := false; c_terminals := []; c_genesis := st_genesis; c_extensions := []; c_bundles := [];
     c_schema := {| sch_id := 0; sch_globals := [(7, limit)]; sch_libs := []; sch_types := [] |};
     c_ifaces := []; c_supplements := []; c_types := []; c_scripts := []; c_attachments := []; c_signatures := [] |}.
Definition gl_history (limit first second : N) : list StateCall :=
  [StConsignment (gl_limited limit) st_pending;
   StBundle (op_id bit_hashes st_genesis) (gl_b first) (st_w 8) (fun _ => Some (Mined 100 0));
   StBundle (op_id bit_hashes st_genesis) (gl_b second) (st_w 9) (fun _ => Some (Mined 200 0))].
Definition gl_go (d w : N) : GlobalOut :=
  {| go_op := op_id bit_hashes (gl_tr d); go_nonce := 0; go_index := 0; go_witness := OWTransition (st_w w) 3 |}.
Definition gl_ord (d h : N) : GlobalOrd := GOTransition (op_id bit_hashes (gl_tr d)) 0 3 0 (Mined h 0).

Lemma gl_sorted limit a b : history_sorted bit_hashes (gl_history limit a b).
Proof.
  intros c cid ow o [<-|[<-|[<-|[]]]]; simpl.
  - intros [-> [[-> ->]|[(wb & [] & _)|(w & [] & _)]]]. split; repeat constructor.
  - intros (-> & [<-|[]] & ->). split; repeat constructor.
  - intros (-> & [<-|[]] & ->). split; repeat constructor.
Qed.

(** The last operation is left out when one value is allowed, and comes last when ten are *)
Theorem C75_latest_refuted : ~ latest_first /\
  (exists c, contract_state (state_after (OG := OrdGlobalOut) bit_hashes (gl_history 1 43 42)) (op_id bit_hashes st_genesis) = Ok c /\
     global_values c 7 = Some [(gl_ord 43 100, 43)]) /\
  (exists c, contract_state (state_after (OG := OrdGlobalOut) bit_hashes (gl_history 10 43 42)) (op_id bit_hashes st_genesis) = Ok c /\
     global_values c 7 = Some [(gl_ord 43 100, 43); (gl_ord 42 200, 42)]).
Proof.
  assert (E1 : exists c, contract_state (state_after (OG := OrdGlobalOut) bit_hashes (gl_history 1 43 42)) (op_id bit_hashes st_genesis) = Ok c /\
     global_values c 7 = Some [(gl_ord 43 100, 43)]) by (eexists; split; vm_compute; reflexivity).
  split; [|split; [exact E1|eexists; split; vm_compute; reflexivity]].
  intros F. destruct E1 as (c & Ec & El).
  specialize (F bit_hashes (gl_history 1 43 42) (op_id bit_hashes st_genesis) c 7 [(gl_ord 43 100, 43)] bit_collision_free (gl_sorted 1 43 42)).
  assert (Hok : sall_succeed (OG := OrdGlobalOut) bit_hashes ms_empty (gl_history 1 43 42)).
  { repeat split; eexists; vm_compute; reflexivity. }
  specialize (F Hok Ec El
    (StBundle (op_id bit_hashes st_genesis) (gl_b 43) (st_w 8) (fun _ => Some (Mined 100 0))) (OWTransition (st_w 8) 3) (gl_tr 43)
    (gl_go 43 8) 43 (gl_ord 43 100)
    (StBundle (op_id bit_hashes st_genesis) (gl_b 42) (st_w 9) (fun _ => Some (Mined 200 0))) (OWTransition (st_w 9) 3) (gl_tr 42)
    (gl_go 42 9) 42 (gl_ord 42 200)).
  destruct F as (l1 & l2 & l3 & E).
  - right; left; reflexivity.
  - simpl. auto.
  - exists [43], 0%nat. simpl. auto.
  - exists (Mined 100 0). split; vm_compute; reflexivity.
  - right; right; left; reflexivity.
  - simpl. auto.
  - exists [42], 0%nat. simpl. auto.
  - exists (Mined 200 0). split; vm_compute; reflexivity.
  - exists (st_w 8), (st_w 9), 100, 0, 200, 0. repeat split; vm_compute; reflexivity.
  - left; reflexivity.
  - apply (f_equal (@length _)) in E. rewrite app_length in E. simpl in E. rewrite app_length in E. simpl in E. lia.
Qed.
Print Assumptions C75_latest_refuted.

Lemma falling_before {A} (R : A -> A -> Prop) l x y : (forall z, R z z -> False) -> (forall a b c, R a b -> R b c -> R a c) ->
  StronglySorted R l -> In x l -> In y l -> R y x -> reported_after l y x.
Proof.
  intros Irr Tr Hs. induction Hs as [|a l Hs IH Hf]; [intros []|]. rewrite Forall_forall in Hf. intros [->|Hx] [->|Hy] Hr.
  - destruct (Irr _ Hr).
  - destruct (Irr x). exact (Tr _ _ _ (Hf _ Hy) Hr).
  - apply in_split in Hx. destruct Hx as (l2 & l3 & ->). exists [], l2, l3. reflexivity.
  - destruct (IH Hx Hy Hr) as (l1 & l2 & l3 & ->). exists (a :: l1), l2, l3. reflexivity.
Qed.

(** What holds: the values are in the order of the identifiers of their operations, then of
    their numbers, the highest first; if there are too many the lowest are left out.  So the
    values of one operation are in order, and its last ones are kept.  Missing: the order of
    operations is that of their identifiers, not that of the blockchain. *)
Theorem C75_order_partial : forall H history cid c ty l,
  collision_free H -> history_sorted H history -> sall_succeed (OG := OrdGlobalOut) H ms_empty history ->
  let s := state_after (OG := OrdGlobalOut) H history in
  contract_state s cid = Ok c -> global_values c ty = Some l ->
  exists limit places,
    (exists call r, In (StConsignment call r) history /\ cid = op_id H (c_genesis call) /\
       In (ty, limit) (sch_globals (c_schema call))) /\
    Forall2 (fun go x => placed s go (fst x) /\ forall call ow o d,
               In call history -> imports H call cid ow o -> shows H o ow ty go d -> snd x = d) places l /\
    (forall go, In go places -> exists call ow o d, In call history /\ imports H call cid ow o /\ shows H o ow ty go d) /\
    StronglySorted (fun a b => lower b a) places /\
    (forall call ow o go d, In call history -> imports H call cid ow o -> shows H o ow ty go d ->
       In go places \/ len l = limit /\ forall p, In p places -> lower go p) /\
    forall call ow o go d go' d', In call history -> imports H call cid ow o ->
       shows H o ow ty go d -> shows H o ow ty go' d' -> go_index go < go_index go' ->
       In go places -> reported_after places go' go.
Proof.
  intros H history cid c ty l HC HS Hok s E El.
  destruct (C28_last OrdGlobalOut H history cid c ty l Hok E El) as (limit & places & Hl & F & Fa & Hout).
  assert (Hout' : forall call ow o go d, In call history -> imports H call cid ow o -> shows H o ow ty go d ->
       In go places \/ len l = limit /\ forall p, In p places -> lower go p).
  { intros call ow o go d Hc Hi Hsh. destruct (Hout call ow o go d Hc Hi Hsh) as [X|[X Y]]; [left; exact X|right].
    split; [exact X|]. intros p Hp. apply lower_spec, Y, Hp. }
  assert (Fa' : StronglySorted (fun a b => lower b a) places).
  { clear -Fa. induction Fa as [|a m Fa IH Hf]; constructor; [exact IH|]. eapply Forall_impl; [|exact Hf].
    intros b Hb. apply lower_spec, Hb. }
  assert (Irr : forall z, lower z z -> False).
  { intros z Hz. apply lower_spec in Hz. pose proof (proj2 (cmp_eq (OrdKey := OrdGlobalOut) z z) eq_refl). congruence. }
  exists limit, places. split; [exact Hl|]. split; [|split; [|split; [exact Fa'|split; [exact Hout'|]]]].
  - clear -F HC HS. induction F as [|go x places l (Hp & call' & ow' & o' & Hc' & Hi' & Hs') F IH]; constructor; [|exact IH].
    split; [exact Hp|]. intros call ow o d Hc Hi Hsh. eapply (shows_fun H o' o); eauto.
  - clear -F. induction F as [|go x places l (Hp & call' & ow' & o' & Hc' & Hi' & Hs') F IH]; [intros go []|].
    intros g [<-|Hg]; [eauto 10|exact (IH _ Hg)].
  - intros call ow o go d go' d' Hc Hi Hsh Hsh' Hlt Hin.
    assert (Lo : lower go go').
    { destruct Hsh as (v & n & _ & _ & ->), Hsh' as (v' & n' & _ & _ & ->). unfold lower. cbn in *. right. split; [reflexivity|].
      right. split; [reflexivity|]. left. exact Hlt. }
    assert (Tr : forall a b c, lower b a -> lower c b -> lower c a).
    { intros a b c0 Hab Hbc. apply lower_spec. apply lower_spec in Hab, Hbc.
      exact (cmp_lt_trans (OrdKey := OrdGlobalOut) _ _ _ Hbc Hab). }
    assert (Hin' : In go' places).
    { destruct (Hout' call ow o go' d' Hc Hi Hsh') as [X|[_ X]]; [exact X|]. specialize (X go Hin).
      destruct (Irr go). exact (Tr _ _ _ X Lo). }
    exact (falling_before (fun a b => lower b a) _ _ _ Irr Tr Fa' Hin Hin' Lo).
Qed.
Print Assumptions C75_order_partial.
(** A history with both operations *)
Example C75_example :
  collision_free bit_hashes /\ history_sorted bit_hashes (gl_history 10 43 42) /\
  sall_succeed (OG := OrdGlobalOut) bit_hashes ms_empty (gl_history 10 43 42) /\
  lower (gl_go 42 9) (gl_go 43 8).
Proof.
  split; [apply bit_collision_free|]. split; [apply gl_sorted|]. split; [repeat split; eexists; vm_compute; reflexivity|].
  left. vm_compute. reflexivity.
Qed.

(** ** C31 *)

(** What is returned, exactly: the first witness which is not archived, if all before it are
    known; the first unknown witness, if all before it are archived; the absence of a valid
    witness, if all are archived. *)
Theorem C31_exact : forall s ws,
  let archived w := mget w (ms_witnesses s) = Some Archived in
  select_valid_witness s ws <> Panic /\
  (forall w, select_valid_witness s ws = Ok w <->
     exists before after, ws = before ++ w :: after /\ Forall archived before /\ is_live s w) /\
  (forall w, select_valid_witness s ws = Err (AbsentWitness w) <->
     exists before after, ws = before ++ w :: after /\ Forall archived before /\ mget w (ms_witnesses s) = None) /\
  (forall e, select_valid_witness s ws = Err e -> e = AbsentValidWitness \/ exists w, e = AbsentWitness w) /\
  (select_valid_witness s ws = Err AbsentValidWitness <-> Forall archived ws).
Proof.
  intros s ws archived. induction ws as [|w0 ws IH]; simpl.
  - split; [discriminate|]. split; [intros w; split; [discriminate|intros (b & a & E & _); destruct b; discriminate]|].
    split; [intros w; split; [discriminate|intros (b & a & E & _); destruct b; discriminate]|].
    split; [intros e E; injection E as <-; left; reflexivity|]. split; [constructor|reflexivity].
  - destruct IH as (B & A & C & D & F). unfold is_valid_witness.
    assert (SP : forall P : WitnessId -> Prop, archived w0 -> (forall w, P w -> ~ archived w) -> forall w,
               (exists before after, w0 :: ws = before ++ w :: after /\ Forall archived before /\ P w) <->
               (exists before after, ws = before ++ w :: after /\ Forall archived before /\ P w)).
    { intros P Ha Hp w. split.
      - intros (b & a & E & Hb & Hw). destruct b as [|x b]; injection E as -> ->; [destruct (Hp _ Hw Ha)|].
        inversion Hb; subst. eauto.
      - intros (b & a & -> & Hb & Hw). exists (w0 :: b), a. split; [reflexivity|]. split; [constructor; assumption|exact Hw]. }
    assert (SN : forall P : WitnessId -> Prop, ~ archived w0 -> forall w,
               (exists before after, w0 :: ws = before ++ w :: after /\ Forall archived before /\ P w) <-> w = w0 /\ P w0).
    { intros P Hn w. split.
      - intros (b & a & E & Hb & Hw). destruct b as [|x b]; injection E as -> ->; [auto|]. inversion Hb; subst. contradiction.
      - intros [-> Hw]. exists [], ws. split; [reflexivity|]. split; [constructor|exact Hw]. }
    assert (HL : forall w, is_live s w -> ~ archived w) by (intros w (o & Ho & Hn) Ha; unfold archived in Ha; congruence).
    assert (HN : forall w, mget w (ms_witnesses s) = None -> ~ archived w) by (intros w Ho Ha; unfold archived in Ha; congruence).
    destruct (mget w0 (ms_witnesses s)) as [ord|] eqn:E0; cbn [ok_or rbind].
    + destruct (ord_valid ord) eqn:Ev.
      * apply ord_valid_spec in Ev. assert (Hn : ~ archived w0) by (unfold archived; congruence).
        split; [discriminate|]. split; [|split; [|split; [discriminate|]]].
        -- intros w. rewrite (SN _ Hn). split; [intros E; injection E as <-; split; [reflexivity|exists ord; auto]|intros [-> _]; reflexivity].
        -- intros w. rewrite (SN (fun w => mget w (ms_witnesses s) = None) Hn). split; [discriminate|intros [_ X]; congruence].
        -- split; [discriminate|]. intros X. inversion X; subst. contradiction.
      * assert (ord = Archived) as -> by (destruct ord; try discriminate; reflexivity).
        split; [exact B|]. split; [intros w; rewrite (SP _ E0 HL); apply A|]. split; [intros w; rewrite (SP _ E0 HN); apply C|].
        split; [exact D|]. rewrite F. split; [intros X; constructor; assumption|intros X; inversion X; assumption].
    + assert (Hn : ~ archived w0) by (unfold archived; congruence).
      split; [discriminate|]. split; [|split; [|split; [|]]].
      * intros w. rewrite (SN _ Hn). split; [discriminate|intros [_ (o & Ho & _)]; congruence].
      * intros w. rewrite (SN (fun w => mget w (ms_witnesses s) = None) Hn). split; [intros E; injection E as <-; auto|intros [-> _]; reflexivity].
      * intros e E. injection E as <-. right. eauto.
      * split; [discriminate|]. intros X. inversion X; subst. contradiction.
Qed.
Print Assumptions C31_exact.
Example C31_exact_example :
  let s := {| ms_witnesses := [(st_w 7, Archived); (st_w 8, Tentative)]; ms_contracts := [] |} in
  select_valid_witness s [st_w 7; st_w 9; st_w 8] = Err (AbsentWitness (st_w 9)) /\
  select_valid_witness s [st_w 7; st_w 7] = Err AbsentValidWitness /\ select_valid_witness s [st_w 7; st_w 8; st_w 9] = Ok (st_w 8).
Proof. repeat split. Qed.
