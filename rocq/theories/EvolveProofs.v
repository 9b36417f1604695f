(** Proofs about evolving states *)
From Verif Require Import Base StM Core ContainerModel PIndexModel PIndexSpec PIndexProofs
  StateModel StateSpec StateProofs EvolveModel EvolveSpec.
Local Open Scope N_scope.

Section EvolveProofs.
Context {OG : OrdKey GlobalOut}.

(** ** What a series of operations makes of a contract *)

Record built (H : Hashes) (l : list OrdOp) (cs cs' : ContractState) : Prop := {
  bt_csw : csw cs';
  bt_gs : msorted (cs_global cs) -> msorted (cs_global cs');
  bt_ids : cs_schema cs' = cs_schema cs /\ cs_contract cs' = cs_contract cs;
  bt_out : forall k key p, mget key (cs_outs k cs') = Some p -> mget key (cs_outs k cs) = Some p \/
     exists x, In x l /\ reveals H (oo_operation x) (oo_pub x) k (out_assign (key, p));
  bt_keep : forall k key p, mget key (cs_outs k cs) = Some p -> mget key (cs_outs k cs') = Some p;
  bt_all : forall k key p x, In x l -> reveals H (oo_operation x) (oo_pub x) k (out_assign (key, p)) ->
     exists p', mget key (cs_outs k cs') = Some p';
  bt_glob : forall ty g', mget ty (cs_global cs') = Some g' -> exists g, mget ty (cs_global cs) = Some g /\
     mg_limit g' = mg_limit g /\
     (forall go d, mget go (mg_known g') = Some d -> mget go (mg_known g) = Some d \/
        exists x, In x l /\ shows H (oo_operation x) (oo_pub x) ty go d) /\
     (forall go d, mget go (mg_known g) = Some d -> exists d', mget go (mg_known g') = Some d') /\
     (forall go d x, In x l -> shows H (oo_operation x) (oo_pub x) ty go d ->
        exists d', mget go (mg_known g') = Some d');
  bt_types : forall ty g, mget ty (cs_global cs) = Some g -> exists g', mget ty (cs_global cs') = Some g'
}.

Lemma built_nil H cs : csw cs -> built H [] cs cs.
Proof.
  intros W. constructor; auto.
  - intros k key p x [].
  - intros ty g Hg. exists g. split; [exact Hg|]. split; [reflexivity|]. split; [auto|].
    split; [eauto|]. intros go d x [].
  - eauto.
Qed.

Lemma built_cons H x l cs cs1 cs2 : csw cs -> add_operation H cs (oo_pub x) (oo_operation x) = Ok cs1 ->
  built H l cs1 cs2 -> built H (x :: l) cs cs2.
Proof.
  intros W E [Bc Bs Bi Bo Bk Ba Bg Bt]. pose proof E as E0. apply add_operation_spec in E; [|exact W].
  destruct E as (W1 & I1 & O1 & K1 & A1 & G1 & T1). constructor.
  - exact Bc.
  - intros S. apply Bs. eapply add_operation_gsorted; eauto.
  - destruct Bi, I1. split; congruence.
  - intros k key p Hk. destruct (Bo k key p Hk) as [Hx|(y & Hy & Hr)].
    + destruct (O1 k key p Hx) as [Hz|Hz]; [auto|]. right. exists x. simpl; auto.
    + right. exists y. simpl; auto.
  - auto.
  - intros k key p y [<-|Hy] Hr; [|eapply Ba; eauto].
    destruct (A1 k key p Hr) as [p' Hp']. exists p'. apply Bk, Hp'.
  - intros ty g' Hg'. destruct (Bg ty g' Hg') as (g1 & H1 & L1 & F1 & C1 & D1).
    destruct (G1 ty g1 H1) as (g & Hg & L & F & C & D).
    exists g. split; [exact Hg|]. split; [congruence|]. split; [|split].
    + intros go d Hd. destruct (F1 go d Hd) as [Hx|(y & Hy & Hs)].
      * destruct (F go d Hx) as [Hz|Hz]; [auto|]. right. exists x. simpl; auto.
      * right. exists y. simpl; auto.
    + intros go d Hd. destruct (C go d Hd) as [d1 Hd1]. eapply C1; eauto.
    + intros go d y [<-|Hy] Hs; [|eapply D1; eauto].
      destruct (D go d Hs) as [d1 Hd1]. eapply C1; eauto.
  - intros ty g Hg. destruct (T1 ty g Hg) as [g1 H1]. eapply Bt; eauto.
Qed.

Lemma evolve_state_inv H c x c' : evolve_state H c x = Ok c' ->
  add_operation H (mc_state c) (oo_pub x) (oo_operation x) = Ok (mc_state c') /\
  mc_filter c' = match oo_status x with
                 | Some (w, ord) => minsert w ord (mc_filter c)
                 | None => mc_filter c
                 end.
Proof.
  destruct x as [g|t w ord|e w ord]; cbn [evolve_state oo_pub oo_operation oo_status]; intros E;
    (match type of E with context [add_operation ?a ?b ?c ?d] => destruct (add_operation a b c d) as [cs|err|] end;
     cbn [rbind] in E; [|discriminate|discriminate]; apply Ok_inj in E; subst c'; split; reflexivity).
Qed.

Lemma evolve_all_built H l c c' : csw (mc_state c) -> evolve_all H c l = Ok c' ->
  built H l (mc_state c) (mc_state c').
Proof.
  revert c. induction l as [|x l IH]; intros c W E; unfold evolve_all in E; cbn [rfold] in E.
  - apply Ok_inj in E. subst c'. apply built_nil, W.
  - destruct (evolve_state H c x) as [c1|e|] eqn:Ex; cbn [rbind] in E; [|discriminate|discriminate].
    apply evolve_state_inv in Ex. destruct Ex as [Ex _].
    assert (W1 : csw (mc_state c1)) by (apply add_operation_spec in Ex; [apply Ex|exact W]).
    eapply built_cons; [exact W|exact Ex|]. apply IH; [exact W1|exact E].
Qed.

(** The filter holds the last status of each witness. *)
Lemma evolve_all_filter H l c c' : msorted (mc_filter c) -> evolve_all H c l = Ok c' ->
  msorted (mc_filter c') /\
  (forall w ord, mget w (mc_filter c') = Some ord ->
     mget w (mc_filter c) = Some ord \/ exists x, In x l /\ oo_status x = Some (w, ord)) /\
  (forall w, (exists ord, mget w (mc_filter c) = Some ord) -> exists ord, mget w (mc_filter c') = Some ord) /\
  (forall x w ord, In x l -> oo_status x = Some (w, ord) -> exists ord', mget w (mc_filter c') = Some ord') /\
  (forall w, (forall x ord, In x l -> oo_status x <> Some (w, ord)) ->
     mget w (mc_filter c') = mget w (mc_filter c)) /\
  (forall x w ord, In x l -> oo_status x = Some (w, ord) ->
     exists y ord', In y l /\ oo_status y = Some (w, ord') /\ mget w (mc_filter c') = Some ord').
Proof.
  revert c. induction l as [|x l IH]; intros c S E; unfold evolve_all in E; cbn [rfold] in E.
  - apply Ok_inj in E. subst c'. split; [exact S|]. split; [auto|]. split; [auto|]. split; [intros x w ord []|].
    split; [auto|intros x w ord []].
  - destruct (evolve_state H c x) as [c1|e|] eqn:Ex; cbn [rbind] in E; [|discriminate|discriminate].
    apply evolve_state_inv in Ex. destruct Ex as [_ Ef].
    assert (S1 : msorted (mc_filter c1)).
    { rewrite Ef. destruct (oo_status x) as [[w ord]|]; [apply minsert_sorted|]; exact S. }
    destruct (IH c1 S1 E) as (S2 & F2 & K2 & A2 & N2 & L2).
    assert (Here : forall w ord, oo_status x = Some (w, ord) -> exists ord', mget w (mc_filter c1) = Some ord').
    { intros w ord Hx. rewrite Ef, Hx, mget_insert_eq. eauto. }
    assert (Keep : forall w, (exists ord, mget w (mc_filter c) = Some ord) -> exists ord, mget w (mc_filter c1) = Some ord).
    { intros w Hw. rewrite Ef. destruct (oo_status x) as [[w' ord']|]; [|exact Hw].
      rewrite mget_insert. destruct (keqb w w'); eauto. }
    split; [exact S2|]. split; [|split; [|split; [|split]]].
    + intros w ord Hw. destruct (F2 w ord Hw) as [Hy|(y & Hy & Hs)]; [|right; exists y; simpl; auto].
      rewrite Ef in Hy. destruct (oo_status x) as [[w' ord']|] eqn:Es; [|auto].
      rewrite mget_insert in Hy. destruct (keqb_spec w w') as [->|_]; [|auto].
      apply Some_inj in Hy. subst ord'. right. exists x. simpl; auto.
    + auto.
    + intros y w ord [<-|Hy] Hs; [|eapply A2; eauto]. apply K2. eapply Here; eauto.
    + intros w Hn. rewrite N2 by (intros y ord Hy; apply Hn; right; exact Hy). rewrite Ef.
      destruct (oo_status x) as [[w' ord']|] eqn:Es; [|reflexivity].
      apply mget_insert_ne. intros ->. exact (Hn x ord' (or_introl eq_refl) Es).
    + intros y w ord Hy Hs.
      destruct (existsb (fun z => match oo_status z with Some (w', _) => keqb w' w | None => false end) l) eqn:Ee.
      * apply existsb_exists in Ee. destruct Ee as (z & Hz & Ez).
        destruct (oo_status z) as [[w' o']|] eqn:Ez'; [|discriminate]. apply keqb_true in Ez. subst w'.
        destruct (L2 z w o' Hz Ez') as (u & ou & Hu & Su & Gu). exists u, ou. simpl; auto.
      * assert (No : forall z o', In z l -> oo_status z <> Some (w, o')).
        { intros z o' Hz Sz. assert (existsb (fun z => match oo_status z with Some (w', _) => keqb w' w | None => false end) l = true).
          { apply existsb_exists. exists z. split; [exact Hz|]. rewrite Sz. apply keqb_refl. }
          congruence. }
        destruct Hy as [<-|Hy]; [|destruct (No y ord Hy Hs)].
        exists x, ord. split; [left; reflexivity|]. split; [exact Hs|].
        rewrite (N2 w No), Ef, Hs. apply mget_insert_eq.
Qed.

(** ** The order of operations does not matter *)

Lemma new_csw schema cid : csw (cs_new schema cid).
Proof.
  split; [intros []; apply msorted_nil|].
  intros ty g Hg. apply mfrom_get_In in Hg. apply in_map_iff in Hg. destruct Hg as (p & E & _).
  injection E as <- <-. apply msorted_nil.
Qed.

Lemma new_outs schema cid k key : mget key (cs_outs k (cs_new schema cid)) = None.
Proof. destruct k; reflexivity. Qed.

Lemma new_known schema cid ty g : mget ty (cs_global (cs_new schema cid)) = Some g -> mg_known g = [].
Proof.
  intros Hg. apply mfrom_get_In in Hg. apply in_map_iff in Hg. destruct Hg as (p & E & _).
  injection E as <- <-. reflexivity.
Qed.

Lemma cs_ext cs cs' : cs_schema cs = cs_schema cs' -> cs_contract cs = cs_contract cs' ->
  cs_global cs = cs_global cs' -> (forall k, cs_outs k cs = cs_outs k cs') -> cs = cs'.
Proof.
  intros E1 E2 E3 E4. destruct cs, cs'. simpl in *. subst.
  pose proof (E4 KDeclarative). pose proof (E4 KFungible). pose proof (E4 KStructured). pose proof (E4 KAttachment).
  simpl in *. subst. reflexivity.
Qed.

Lemma built_unique H l l' schema cid cs cs' : collision_free H -> ops_sorted l -> ops_one_witness H l ->
  (forall x, In x l <-> In x l') ->
  built H l (cs_new schema cid) cs -> built H l' (cs_new schema cid) cs' -> cs = cs'.
Proof.
  intros HC HS HW Same B B'. apply cs_ext.
  - destruct (bt_ids _ _ _ _ B), (bt_ids _ _ _ _ B'). congruence.
  - destruct (bt_ids _ _ _ _ B), (bt_ids _ _ _ _ B'). congruence.
  - apply msorted_ext; [apply B, mfrom_sorted|apply B', mfrom_sorted|]. intros ty.
    assert (Half : forall l l' cs cs' g, (forall x, In x l -> In x l') -> (forall x, In x l' -> op_sorted (oo_operation x)) ->
      built H l (cs_new schema cid) cs -> built H l' (cs_new schema cid) cs' ->
      mget ty (cs_global cs) = Some g -> exists g', mget ty (cs_global cs') = Some g' /\ mg_limit g' = mg_limit g /\
        forall go d, mget go (mg_known g) = Some d -> mget go (mg_known g') = Some d).
    { clear - HC. intros l l' cs cs' g Sub HS B B' Hg.
      destruct (bt_glob _ _ _ _ B ty g Hg) as (g0 & H0 & L0 & F0 & _ & _).
      destruct (bt_types _ _ _ _ B' ty g0 H0) as [g' Hg'].
      destruct (bt_glob _ _ _ _ B' ty g' Hg') as (g0' & H0' & L' & F' & _ & D').
      rewrite H0 in H0'. apply Some_inj in H0'. subst g0'.
      exists g'. split; [exact Hg'|]. split; [congruence|]. intros go d Hd.
      pose proof (new_known _ _ _ _ H0) as Z.
      destruct (F0 go d Hd) as [Hx|(x & Hx & Sx)]; [rewrite Z in Hx; discriminate|].
      destruct (D' go d x (Sub x Hx) Sx) as [d' Hd'].
      destruct (F' go d' Hd') as [Hy|(y & Hy & Sy)]; [rewrite Z in Hy; discriminate|].
      rewrite Hd'. f_equal. symmetry. eapply shows_fun; [exact HC| | |exact Sx|exact Sy]; apply HS; auto. }
    assert (HS' : forall x, In x l' -> op_sorted (oo_operation x)) by (intros x Hx; apply HS, Same, Hx).
    destruct (mget ty (cs_global cs)) as [g|] eqn:Eg.
    + destruct (Half l l' cs cs' g (fun x => proj1 (Same x)) HS' B B' Eg) as (g' & Eg' & L & F).
      destruct (Half l' l cs' cs g' (fun x => proj2 (Same x)) HS B' B Eg') as (g2 & Eg2 & L2 & F2).
      rewrite Eg in Eg2. apply Some_inj in Eg2. subst g2. rewrite Eg'. f_equal.
      destruct g as [k1 l1], g' as [k2 l2]. simpl in *. subst l2. f_equal.
      apply msorted_ext.
      * apply (proj2 (bt_csw _ _ _ _ B) ty _ Eg).
      * apply (proj2 (bt_csw _ _ _ _ B') ty _ Eg').
      * intros go. destruct (mget go k1) as [d|] eqn:E1; [symmetry; apply F, E1|].
        destruct (mget go k2) as [d|] eqn:E2; [|reflexivity]. apply F2 in E2. congruence.
    + destruct (mget ty (cs_global cs')) as [g'|] eqn:Eg'; [|reflexivity].
      destruct (Half l' l cs' cs g' (fun x => proj2 (Same x)) HS B' B Eg') as (g2 & Eg2 & _). congruence.
  - intros k. apply msorted_ext; [apply B|apply B'|]. intros key.
    assert (Half : forall l l' cs cs' p, (forall x, In x l -> In x l') -> ops_sorted l' -> ops_one_witness H l' ->
      built H l (cs_new schema cid) cs -> built H l' (cs_new schema cid) cs' ->
      mget key (cs_outs k cs) = Some p -> mget key (cs_outs k cs') = Some p).
    { clear - HC. intros l l' cs cs' p Sub HS HW B B' Hp.
      destruct (bt_out _ _ _ _ B k key p Hp) as [Hx|(x & Hx & Rx)]; [rewrite new_outs in Hx; discriminate|].
      destruct (bt_all _ _ _ _ B' k key p x (Sub x Hx) Rx) as [p' Hp'].
      destruct (bt_out _ _ _ _ B' k key p' Hp') as [Hy|(y & Hy & Ry)]; [rewrite new_outs in Hy; discriminate|].
      rewrite Hp'. f_equal.
      assert (So : same_out (out_assign (key, p)) (out_assign (key, p'))) by (split; reflexivity).
      destruct (reveals_fun _ _ _ _ _ _ _ _ _ HC (HS x (Sub x Hx)) (HS y Hy) Rx Ry So)
        as (_ & Es & Ei & seal & (ty & ta & no & st & Ht & Hn) & O1 & O2).
      destruct p as [sp wp], p' as [sp' wp']. simpl in Es. subst sp'. f_equal.
      destruct Rx as (? & ? & ? & ? & ? & _ & _ & _ & _ & _ & _ & W1).
      destruct Ry as (? & ? & ? & ? & ? & _ & _ & _ & _ & _ & _ & W2). simpl in W1, W2. subst wp wp'.
      destruct (HW x y (Sub x Hx) Hy Ei) as [E|E]; [congruence|].
      symmetry. eapply seal_output_witness; [|exact O1|exact O2]. eapply E; eauto. }
    assert (HS' : ops_sorted l') by (intros x Hx; apply HS, Same, Hx).
    assert (HW' : ops_one_witness H l') by (intros x y Hx Hy; apply HW; apply Same; assumption).
    destruct (mget key (cs_outs k cs)) as [p|] eqn:E1.
    + symmetry. eapply (Half l l' cs cs'); eauto. intros x; apply Same.
    + destruct (mget key (cs_outs k cs')) as [p|] eqn:E2; [|reflexivity].
      rewrite (Half l' l cs' cs p (fun x => proj2 (Same x)) HS HW B' B E2) in E1. discriminate.
Qed.

Lemma filter_unique H l l' c c1 c2 : ops_one_status l -> (forall x, In x l <-> In x l') ->
  msorted (mc_filter c) -> evolve_all H c l = Ok c1 -> evolve_all H c l' = Ok c2 -> mc_filter c1 = mc_filter c2.
Proof.
  intros HO Same S E1 E2.
  destruct (evolve_all_filter _ _ _ _ S E1) as (S1 & F1 & K1 & A1 & N1 & L1).
  destruct (evolve_all_filter _ _ _ _ S E2) as (S2 & F2 & K2 & A2 & N2 & L2).
  apply msorted_ext; [exact S1|exact S2|]. intros w.
  destruct (existsb (fun z => match oo_status z with Some (w', _) => keqb w' w | None => false end) l) eqn:Ee.
  - apply existsb_exists in Ee. destruct Ee as (z & Hz & Ez).
    destruct (oo_status z) as [[w' o']|] eqn:Sz; [|discriminate]. apply keqb_true in Ez. subst w'.
    destruct (L1 z w o' Hz Sz) as (y1 & o1 & Hy1 & Sy1 & G1).
    destruct (L2 z w o' (proj1 (Same z) Hz) Sz) as (y2 & o2 & Hy2 & Sy2 & G2).
    rewrite G1, G2. f_equal. eapply HO; [exact Hy1|apply Same, Hy2|exact Sy1|exact Sy2].
  - assert (No : forall z o', In z l -> oo_status z <> Some (w, o')).
    { intros z o' Hz Sz. assert (existsb (fun z => match oo_status z with Some (w', _) => keqb w' w | None => false end) l = true).
      { apply existsb_exists. exists z. split; [exact Hz|]. rewrite Sz. apply keqb_refl. }
      congruence. }
    rewrite (N1 w No), N2; [reflexivity|]. intros z o' Hz. apply No, Same, Hz.
Qed.

Theorem evolve_order H schema cid l l' c c' : collision_free H -> ops_sorted l -> ops_one_witness H l ->
  ops_one_status l -> (forall x, In x l <-> In x l') ->
  evolve_all H (mc_init schema cid) l = Ok c -> evolve_all H (mc_init schema cid) l' = Ok c' -> c = c'.
Proof.
  intros HC HS HW HO Same E E'.
  pose proof (evolve_all_built H l (mc_init schema cid) c (new_csw _ _) E) as B.
  pose proof (evolve_all_built H l' (mc_init schema cid) c' (new_csw _ _) E') as B'.
  pose proof (filter_unique H l l' (mc_init schema cid) c c' HO Same msorted_nil E E') as Ef.
  pose proof (built_unique H l l' schema cid _ _ HC HS HW Same B B') as Es.
  destruct c, c'. simpl in *. congruence.
Qed.

(** ** When evolving goes through *)

Lemma rfold_no_err {E S A} (f : S -> A -> result E S) l s : (forall s a e, f s a <> Err e) ->
  forall e, rfold f s l <> Err e.
Proof.
  intros Hf. revert s. induction l as [|a l IH]; intros s e; cbn [rfold]; [discriminate|].
  destruct (f s a) as [s'|e'|] eqn:Ea; cbn [rbind]; [apply IH|destruct (Hf _ _ _ Ea)|discriminate].
Qed.
Lemma expect_no_err {E A} (o : option A) (e : E) : expect o <> Err e.
Proof. destruct o; discriminate. Qed.

Lemma process_no_err outs l opid ty w e : process outs l opid ty w <> Err e.
Proof.
  unfold process. apply rfold_no_err. intros o a e'. destruct (to_revealed (snd a)) as [[seal st]|]; [|discriminate].
  destruct (assign_output w seal) as [out|]; cbn [expect rbind]; [apply expect_no_err|discriminate].
Qed.
Lemma add_operation_no_err H cs ow o e : add_operation H cs ow o <> Err e.
Proof.
  unfold add_operation. destruct (add_globals cs (op_id H o) ow o) as [cs1|e1|] eqn:E1; cbn [rbind]; [|..|discriminate].
  - unfold add_assignments. apply rfold_no_err. intros c p e'.
    destruct (process (cs_outs (ta_kind (snd p)) c) (ta_list (snd p)) (op_id H o) (fst p) (op_witness ow)) as [x|e2|] eqn:Ep;
      cbn [rbind]; [discriminate| |discriminate]. apply process_no_err in Ep. destruct Ep.
  - exfalso. revert E1. unfold add_globals. apply rfold_no_err. intros c p e'.
    destruct (mget (fst p) (cs_global c)) as [g|]; cbn [expect rbind]; [|discriminate].
    match goal with |- context [rfold ?f ?a ?l] => destruct (rfold f a l) as [x|e2|] eqn:Ef end;
      cbn [rbind]; [discriminate| |discriminate].
    exfalso. revert Ef. apply rfold_no_err. intros; apply expect_no_err.
Qed.
Lemma evolve_no_err H l c e : evolve_all H c l <> Err e.
Proof.
  apply rfold_no_err. intros s x e'. destruct x as [g|t w ord|t w ord]; cbn [evolve_state];
    (match goal with |- context [add_operation ?a ?b ?c ?d] => destruct (add_operation a b c d) as [y|e2|] eqn:Ea end;
     cbn [rbind]; [discriminate| |discriminate]; apply add_operation_no_err in Ea; destruct Ea).
Qed.

Definition room (n : N) (cs : ContractState) : Prop :=
  (forall k, len (cs_outs k cs) + n <= U32MAX) /\
  (forall ty g, mget ty (cs_global cs) = Some g -> len (mg_known g) + n <= U32MAX).

Lemma enumerate_len {A} (l : list A) : length (enumerate l) = length l.
Proof.
  unfold enumerate. generalize O. induction l as [|a l IH]; intros n; [reflexivity|]. cbn [enum_from length]. rewrite IH. reflexivity.
Qed.

Lemma process_total outs l opid ty w : len outs + len l <= U32MAX ->
  (forall no seal st, nth_error l no = Some (Revealed seal st) -> exists out, assign_output w seal = Some out) ->
  exists outs', process outs l opid ty w = Ok outs' /\ len outs' <= len outs + len l.
Proof.
  unfold process. intros R F.
  assert (F' : forall no seal st, In (no, Revealed seal st) (enumerate l) -> exists out, assign_output w seal = Some out).
  { intros no seal st Hin. apply enumerate_In in Hin. eapply F; eauto. }
  assert (EL : len l = len (enumerate l)) by (unfold len; rewrite enumerate_len; reflexivity). rewrite EL in *.
  clear F EL. revert outs R. induction (enumerate l) as [|[no a] l' IH]; intros outs R; cbn [rfold].
  - exists outs. split; [reflexivity|lia].
  - assert (Elen : len ((no, a) :: l') = len l' + 1) by (unfold len; cbn [length]; lia). rewrite Elen in *.
    assert (F2 : forall no seal st, In (no, Revealed seal st) l' -> exists out, assign_output w seal = Some out).
    { intros n0 seal st Hin. eapply F'. right. exact Hin. }
    cbn [fst snd]. destruct (to_revealed a) as [[seal st]|] eqn:Er.
    + assert (a = Revealed seal st) by (destruct a; simpl in Er; congruence). subst a.
      destruct (F' no seal st (or_introl eq_refl)) as [out Ho]. rewrite Ho. cbn [expect rbind].
      unfold push_out. destruct (N.ltb_spec (len outs) U32MAX) as [_|Hge]; [|lia]. cbn [expect rbind].
      set (outs1 := if mhas (opout opid ty no, out) outs then outs else minsert (opout opid ty no, out) (st, w) outs).
      assert (Hl : len outs1 <= len outs + 1).
      { unfold outs1. destruct (mhas (opout opid ty no, out) outs); [lia|]. apply len_insert_le. }
      destruct (IH F2 outs1) as (outs' & E & L); [lia|]. exists outs'. split; [exact E|lia].
    + cbn [rbind]. destruct (IH F2 outs) as (outs' & E & L); [lia|]. exists outs'. split; [exact E|lia].
Qed.

Lemma add_assignments_total n w opid (a : Assignments) cs :
  room (n + list_sum (map (fun p => len (ta_list (snd p))) a)) cs ->
  (forall ty ta no seal st, In (ty, ta) a -> nth_error (ta_list ta) no = Some (Revealed seal st) ->
     exists out, assign_output w seal = Some out) ->
  exists cs', add_assignments cs w opid a = Ok cs' /\ room n cs'.
Proof.
  unfold add_assignments. revert cs. induction a as [|[ty ta] a IH]; intros cs [R1 R2] F; cbn [rfold].
  - exists cs. split; [reflexivity|]. unfold list_sum in *. cbn [map fold_right] in *. split.
    + intros k. specialize (R1 k). lia.
    + intros ty g Hg. specialize (R2 ty g Hg). lia.
  - unfold list_sum in *. cbn [map fold_right fst snd] in *. set (rest := fold_right N.add 0 _) in *.
    destruct (process_total (cs_outs (ta_kind ta) cs) (ta_list ta) opid ty w) as (outs & E & L).
    + specialize (R1 (ta_kind ta)). lia.
    + intros no seal st Hn. eapply F; [left; reflexivity|exact Hn].
    + rewrite E. cbn [rbind]. apply IH; [|intros ty' ta' no seal st Hin; eapply F; right; exact Hin].
      fold rest. split.
      * intros k. specialize (R1 k). destruct (ta_kind ta), k; cbn [cs_outs cs_set_outs cs_rights cs_fungibles cs_data cs_attach] in *; lia.
      * intros ty' g Hg. specialize (R2 ty' g Hg). lia.
Qed.

Lemma globals_total (f : nat * N -> GlobalOut) known (l : list (nat * N)) : len known + len l <= U32MAX ->
  exists known', rfold (E := StateError) (fun known (q : nat * N) => expect (cinsert U32MAX (f q) (snd q) known)) known l = Ok known' /\
    len known' <= len known + len l.
Proof.
  revert known. induction l as [|q l IH]; intros known R; cbn [rfold].
  - exists known. split; [reflexivity|lia].
  - assert (Elen : len (q :: l) = len l + 1) by (unfold len; cbn [length]; lia). rewrite Elen in *.
    unfold cinsert at 1. destruct (N.ltb_spec (len known) U32MAX) as [_|Hge]; [|lia]. cbn [expect rbind].
    pose proof (len_insert_le (f q) (snd q) known).
    destruct (IH (minsert (f q) (snd q) known)) as (known' & E & L); [lia|]. exists known'. split; [exact E|lia].
Qed.

Lemma add_globals_total n opid ow o cs :
  room (n + list_sum (map (fun p => len (snd p)) (op_globals o))) cs ->
  (forall ty vals, In (ty, vals) (op_globals o) -> exists g, mget ty (cs_global cs) = Some g) ->
  exists cs', add_globals cs opid ow o = Ok cs' /\ room n cs'.
Proof.
  unfold add_globals. generalize (op_globals o). intros l. revert cs. induction l as [|[ty vals] l IH]; intros cs [R1 R2] F; cbn [rfold].
  - exists cs. split; [reflexivity|]. unfold list_sum in *. cbn [map fold_right] in *. split.
    + intros k. specialize (R1 k). lia.
    + intros ty g Hg. specialize (R2 ty g Hg). lia.
  - unfold list_sum in *. cbn [map fold_right fst snd] in *. set (rest := fold_right N.add 0 _) in *.
    destruct (F ty vals (or_introl eq_refl)) as [g Hg]. rewrite Hg. cbn [expect rbind].
    destruct (globals_total (fun q => {| go_op := opid; go_nonce := op_nonce o; go_index := N.of_nat (fst q); go_witness := ow |})
                (mg_known g) (enumerate vals)) as (known & E & L).
    { specialize (R2 ty g Hg). unfold len in *. rewrite enumerate_len. lia. }
    match goal with |- context [rfold ?f ?a (enumerate vals)] => change (rfold f a (enumerate vals)) with
      (rfold (E := StateError) (fun known (q : nat * N) => expect (cinsert U32MAX {| go_op := opid; go_nonce := op_nonce o; go_index := N.of_nat (fst q); go_witness := ow |} (snd q) known)) (mg_known g) (enumerate vals)) end.
    rewrite E. cbn [rbind].
    assert (L' : len known <= len (mg_known g) + len vals) by (unfold len in *; rewrite enumerate_len in L; exact L).
    apply IH.
    + fold rest. split.
      * intros k. specialize (R1 k). destruct k; cbn [cs_outs cs_set_global cs_rights cs_fungibles cs_data cs_attach] in *; lia.
      * intros ty' g' Hg'. cbn [cs_global cs_set_global] in Hg'. rewrite mget_insert in Hg'.
        destruct (keqb_spec ty' ty) as [->|_].
        -- apply Some_inj in Hg'. subst g'. cbn [mg_known]. specialize (R2 ty g Hg). lia.
        -- specialize (R2 ty' g' Hg'). lia.
    + intros ty' vals' Hin. cbn [cs_global cs_set_global]. rewrite mget_insert.
      destruct (keqb ty' ty); [eauto|]. eapply F. right. exact Hin.
Qed.

Lemma add_globals_types opid ow o cs cs' : add_globals cs opid ow o = Ok cs' ->
  forall ty vals, In (ty, vals) (op_globals o) -> exists g, mget ty (cs_global cs) = Some g.
Proof.
  unfold add_globals. generalize (op_globals o). intros l. revert cs. induction l as [|[ty0 v0] l IH]; intros cs E ty vals; [intros []|].
  cbn [rfold fst snd] in E. destruct (mget ty0 (cs_global cs)) as [g|] eqn:Eg; cbn [expect rbind] in E; [|discriminate].
  match type of E with context [rfold ?f (mg_known g) ?l] => destruct (rfold f (mg_known g) l) as [x|e|] end;
    cbn [rbind] in E; [|discriminate|discriminate].
  intros [Hx|Hx]; [injection Hx as <- _; eauto|].
  destruct (IH _ E ty vals Hx) as [g' Hg']. cbn [cs_global cs_set_global] in Hg'. rewrite mget_insert in Hg'.
  destruct (keqb_spec ty ty0) as [->|_]; eauto.
Qed.

Lemma add_operation_fits H cs ow o cs' : add_operation H cs ow o = Ok cs' ->
  (forall ty vals, In (ty, vals) (op_globals o) -> exists g, mget ty (cs_global cs) = Some g) /\ op_fits ow o.
Proof.
  intros E. split.
  - unfold add_operation in E.
    destruct (add_globals cs (op_id H o) ow o) as [cs1|e|] eqn:E1; cbn [rbind] in E; [|discriminate|discriminate].
    eapply add_globals_types; eauto.
  - apply (needs_operation H 0 ow o {| ms_witnesses := []; ms_contracts := [(0, cs)] |}
             {| ms_witnesses := []; ms_contracts := [(0, cs')] |} tt).
    unfold on_contract. cbn [ms_contracts mget]. rewrite keqb_refl, E. reflexivity.
Qed.

Lemma add_operation_total H n ow o cs : room (n + op_size o) cs ->
  (forall ty vals, In (ty, vals) (op_globals o) -> exists g, mget ty (cs_global cs) = Some g) -> op_fits ow o ->
  exists cs', add_operation H cs ow o = Ok cs' /\ room n cs'.
Proof.
  unfold op_size, add_operation. intros R G F.
  destruct (add_globals_total (n + list_sum (map (fun p => len (ta_list (snd p))) (op_assigns o))) (op_id H o) ow o cs) as (cs1 & E1 & R1).
  - destruct R as [R1 R2]. split.
    + intros k. specialize (R1 k). lia.
    + intros ty g Hg. specialize (R2 ty g Hg). lia.
  - exact G.
  - rewrite E1. cbn [rbind]. apply add_assignments_total; [exact R1|exact F].
Qed.

Lemma mfrom_fold_has {K V} `{OrdKey K} (l : list (K * V)) m k :
  (exists v, In (k, v) l) \/ (exists v, mget k m = Some v) ->
  exists v, mget k (fold_left (fun m p => minsert (fst p) (snd p) m) l m) = Some v.
Proof.
  revert m. induction l as [|[k' v'] l IH]; intros m [[v Hv]|[v Hv]]; simpl.
  - destruct Hv.
  - eauto.
  - apply IH. destruct Hv as [Hv|Hv]; [|left; eauto]. injection Hv as -> ->. right. rewrite mget_insert_eq. eauto.
  - apply IH. right. rewrite mget_insert. destruct (keqb k k'); eauto.
Qed.

Lemma new_types schema cid ty : (exists g, mget ty (cs_global (cs_new schema cid)) = Some g) <->
  exists limit, In (ty, limit) (sch_globals schema).
Proof.
  split.
  - intros [g Hg]. apply mfrom_get_In in Hg. apply in_map_iff in Hg. destruct Hg as ([ty' limit] & E & Hin).
    injection E as <- _. eauto.
  - intros [limit Hin]. apply mfrom_fold_has. left. exists {| mg_known := []; mg_limit := limit |}.
    apply in_map_iff. exists (ty, limit). auto.
Qed.

Theorem evolve_iff H schema cid l : list_sum (map (fun x => op_size (oo_operation x)) l) <= U32MAX ->
  ((exists c, evolve_all H (mc_init schema cid) l = Ok c) <-> Forall (ord_op_fits schema) l).
Proof.
  intros R0.
  assert (Gen : forall c, csw (mc_state c) ->
    (forall ty, (exists g, mget ty (cs_global (mc_state c)) = Some g) <-> exists limit, In (ty, limit) (sch_globals schema)) ->
    room (list_sum (map (fun x => op_size (oo_operation x)) l)) (mc_state c) ->
    ((exists c', evolve_all H c l = Ok c') <-> Forall (ord_op_fits schema) l)).
  { clear R0. induction l as [|x l IH]; intros c W T R.
    { split; [constructor|]. intros _. exists c. reflexivity. }
    unfold list_sum in R. cbn [map fold_right] in R.
    assert (Step : forall cs', add_operation H (mc_state c) (oo_pub x) (oo_operation x) = Ok cs' ->
      exists c1, evolve_state H c x = Ok c1 /\ mc_state c1 = cs').
    { intros cs' E. destruct x as [g|t w ord|e w ord]; cbn [evolve_state oo_pub oo_operation] in *; rewrite E; cbn [rbind]; eauto. }
    unfold evolve_all. cbn [rfold]. split.
    - intros [c' E]. destruct (evolve_state H c x) as [c1|e|] eqn:E1; cbn [rbind] in E; [|discriminate|discriminate].
      apply evolve_state_inv in E1. destruct E1 as [E1 _]. pose proof (add_operation_fits _ _ _ _ _ E1) as [F1 F2].
      assert (Fx : ord_op_fits schema x).
      { split; [intros ty vals Hin; apply T; eapply F1; eauto|].
        intros ty ta no seal st Hin Hn. destruct (F2 ty ta no seal st Hin Hn) as [out Ho].
        exists out. apply assign_output_spec, Ho. }
      constructor; [exact Fx|].
      destruct (add_operation_total H (fold_right N.add 0 (map (fun x => op_size (oo_operation x)) l)) (oo_pub x) (oo_operation x) (mc_state c))
        as (cs' & E1' & R'); [rewrite N.add_comm; exact R|exact F1|exact F2|].
      rewrite E1 in E1'. apply Ok_inj in E1'. subst cs'.
      pose proof (add_operation_spec _ _ _ _ _ W E1) as (W1 & _ & _ & _ & _ & G1 & T1).
      apply (IH c1 W1); [|exact R'|exists c'; exact E].
      intros ty. rewrite <- T. split; [intros [g' Hg']; destruct (G1 ty g' Hg') as (g & Hg & _); eauto|].
      intros [g Hg]. eapply T1; eauto.
    - intros F. inversion F as [|x' l' Fx Fl]; subst x' l'. destruct Fx as [F1 F2].
      destruct (add_operation_total H (fold_right N.add 0 (map (fun x => op_size (oo_operation x)) l)) (oo_pub x) (oo_operation x) (mc_state c))
        as (cs' & E1 & R'); [rewrite N.add_comm; exact R| | |].
      { intros ty vals Hin. apply T. eapply F1; eauto. }
      { intros ty ta no seal st Hin Hn. destruct (F2 ty ta no seal st Hin Hn) as [out Ho].
        exists out. apply assign_output_spec, Ho. }
      destruct (Step cs' E1) as (c1 & Ec & <-). rewrite Ec. cbn [rbind].
      pose proof (add_operation_spec _ _ _ _ _ W E1) as (W1 & _ & _ & _ & _ & G1 & T1).
      apply (IH c1 W1); [|exact R'|exact Fl].
      intros ty. rewrite <- T. split; [intros [g' Hg']; destruct (G1 ty g' Hg') as (g & Hg & _); eauto|].
      intros [g Hg]. eapply T1; eauto. }
  apply Gen.
  - apply new_csw.
  - intros ty. apply new_types.
  - split.
    + intros k. destruct k; cbn [cs_outs mc_init mc_state cs_new cs_rights cs_fungibles cs_data cs_attach]; unfold len; cbn [length]; lia.
    + intros ty g Hg. rewrite (new_known _ _ _ _ Hg). unfold len; cbn [length]; lia.
Qed.

(** ** An import is a series of operations *)

Definition status (r : Resolver) (w : WitnessId) : WitnessOrd :=
  match r w with Some ord => ord | None => Archived end.
Definition import_ops (H : Hashes) (c : Consignment) (r : Resolver) : list OrdOp :=
  OOGenesis (c_genesis c) ::
  flat_map (fun wb => map (fun t => OOTransition t (wb_id wb) (status r (wb_id wb))) (wb_known_transitions wb)) (c_bundles c) ++
  flat_map (fun e => match extension_witness c (op_id H e) with
                     | Some w => [OOExtension e w (status r w)]
                     | None => []
                     end) (c_extensions c).

Definition follows (H : Hashes) (cid : N) (r : Resolver) (m : SM unit) (l : list OrdOp) : Prop :=
  forall s s' cs, m s = (s', Ok tt) -> mget cid (ms_contracts s) = Some cs ->
    exists c, evolve_all H {| mc_filter := ms_witnesses s; mc_state := cs |} l = Ok c /\
      ms_witnesses s' = mc_filter c /\ mget cid (ms_contracts s') = Some (mc_state c) /\
      (forall x w ord, In x l -> oo_status x = Some (w, ord) -> r w = Some ord).

Lemma follows_ret H cid r : follows H cid r (ret tt) [].
Proof.
  intros s s' cs E Hc. injection E as <-. eexists. split; [reflexivity|]. split; [reflexivity|]. split; [exact Hc|].
  intros x w ord [].
Qed.

Lemma follows_seq H cid r m k l l' : follows H cid r m l -> follows H cid r k l' ->
  follows H cid r (m ;;! k) (l ++ l').
Proof.
  intros Hm Hk s s' cs E Hc. unfold bind in E. destruct (m s) as [s1 [[]|e|]] eqn:E1; [|discriminate|discriminate].
  destruct (Hm _ _ _ E1 Hc) as (c1 & V1 & W1 & C1 & R1).
  destruct (Hk _ _ _ E C1) as (c2 & V2 & W2 & C2 & R2).
  exists c2. split; [|split; [exact W2|split; [exact C2|]]].
  - unfold evolve_all in *. rewrite rfold_app, V1. cbn [rbind]. rewrite W1 in V2. destruct c1. exact V2.
  - intros x w ord Hx. apply in_app_iff in Hx. destruct Hx; [eapply R1|eapply R2]; eauto.
Qed.

Lemma follows_mfor {A} H cid r (g : A -> SM unit) (f : A -> list OrdOp) l :
  (forall a, follows H cid r (g a) (f a)) -> follows H cid r (mfor g l) (flat_map f l).
Proof.
  intros Hg. induction l as [|a l IH]; cbn [mfor flat_map]; [apply follows_ret|]. apply follows_seq; auto.
Qed.

Lemma follows_op H cid r x : oo_status x = None ->
  follows H cid r (on_contract cid (fun cs => add_operation H cs (oo_pub x) (oo_operation x))) [x].
Proof.
  intros Hs s s' cs E Hc. unfold on_contract in E. rewrite Hc in E.
  destruct (add_operation H cs (oo_pub x) (oo_operation x)) as [cs'|e|] eqn:Ea; [|discriminate|discriminate].
  injection E as <-. destruct x; try discriminate. cbn [oo_pub oo_operation] in Ea.
  unfold evolve_all. cbn [rfold evolve_state mc_state mc_filter]. rewrite Ea. cbn [rbind].
  eexists. split; [reflexivity|]. split; [reflexivity|]. split; [apply mget_insert_eq|].
  intros x w ord [<-|[]] Hx. discriminate.
Qed.

Lemma follows_published H cid r x w : oo_status x = Some (w, status r w) ->
  follows H cid r (do! ord <- resolve r w ;; (set_witness w ord ;;! on_contract cid (fun cs => add_operation H cs (oo_pub x) (oo_operation x)))) [x].
Proof.
  intros Hs s s' cs E Hc. unfold bind at 1, resolve, lift in E.
  destruct (r w) as [ord|] eqn:Er; cbn [ok_or] in E; [|discriminate].
  assert (Es : status r w = ord) by (unfold status; rewrite Er; reflexivity). rewrite Es in Hs.
  unfold bind in E. unfold set_witness, cinsert in E.
  match type of E with context [if ?c then _ else _] => destruct c end; [|discriminate].
  unfold on_contract in E. cbn [ms_contracts set_witnesses] in E. rewrite Hc in E.
  destruct (add_operation H cs (oo_pub x) (oo_operation x)) as [cs'|e|] eqn:Ea; [|discriminate|discriminate].
  injection E as <-.
  exists {| mc_filter := minsert w ord (ms_witnesses s); mc_state := cs' |}. split.
  - unfold evolve_all. cbn [rfold].
    destruct x as [g|t w' ord'|e w' ord']; cbn [oo_status] in Hs; [discriminate|..];
      injection Hs as -> ->; cbn [evolve_state oo_pub oo_operation mc_state mc_filter] in *; rewrite Ea; reflexivity.
  - split; [reflexivity|]. split; [apply mget_insert_eq|].
    intros y w0 ord0 [<-|[]] Hy. rewrite Hs in Hy. injection Hy as <- <-. exact Er.
Qed.

Lemma flat_map_single {A B} (f : A -> B) l : flat_map (fun a => [f a]) l = map f l.
Proof. induction l as [|a l IH]; simpl; [reflexivity|]. rewrite IH. reflexivity. Qed.

Lemma follows_bundles H cid r c :
  follows H cid r
    (mfor (fun wb => mfor (fun t => do! ord <- resolve r (wb_id wb) ;; add_transition H cid t (wb_id wb) ord)
                       (wb_known_transitions wb)) (c_bundles c))
    (flat_map (fun wb => map (fun t => OOTransition t (wb_id wb) (status r (wb_id wb))) (wb_known_transitions wb)) (c_bundles c)).
Proof.
  apply follows_mfor. intros wb. rewrite <- flat_map_single. apply follows_mfor. intros t.
  apply (follows_published H cid r (OOTransition t (wb_id wb) (status r (wb_id wb)))). reflexivity.
Qed.

Lemma follows_extensions H cid r c :
  follows H cid r
    (mfor (fun e => match extension_witness c (op_id H e) with
                 | Some w => do! ord <- resolve r w ;; add_extension H cid e w ord
                 | None => ret tt
                 end) (c_extensions c))
    (flat_map (fun e => match extension_witness c (op_id H e) with
                     | Some w => [OOExtension e w (status r w)]
                     | None => []
                     end) (c_extensions c)).
Proof.
  apply follows_mfor. intros e. destruct (extension_witness c (op_id H e)) as [w|]; [|apply follows_ret].
  apply (follows_published H cid r (OOExtension e w (status r w))). reflexivity.
Qed.

(** The state of the contract a consignment is merged into *)
Definition merge_base (H : Hashes) (c : Consignment) (s : MemState) : ContractState :=
  match mget (op_id H (c_genesis c)) (ms_contracts s) with
  | Some cs => cs
  | None => cs_new (c_schema c) (op_id H (c_genesis c))
  end.

Lemma import_evolves H c r s s' : update_from_consignment H c r s = (s', Ok tt) ->
  exists mc, evolve_all H {| mc_filter := ms_witnesses s; mc_state := merge_base H c s |} (import_ops H c r) = Ok mc /\
    ms_witnesses s' = mc_filter mc /\ mget (op_id H (c_genesis c)) (ms_contracts s') = Some (mc_state mc) /\
    (forall x w ord, In x (import_ops H c r) -> oo_status x = Some (w, ord) -> r w = Some ord).
Proof.
  unfold update_from_consignment. set (cid := contract_id H (c_genesis c)). intros E.
  change (op_id H (c_genesis c)) with cid.
  unfold bind at 1 in E. destruct (st_register H (c_schema c) (c_genesis c) s) as [s1 [[]|e|]] eqn:E1; [|discriminate|discriminate].
  unfold st_register in E1. unfold bind at 1, get in E1. fold cid in E1.
  assert (Reg : exists s0, ms_witnesses s0 = ms_witnesses s /\ mget cid (ms_contracts s0) = Some (merge_base H c s) /\
            add_genesis H cid (c_genesis c) s0 = (s1, Ok tt)).
  { unfold merge_base. change (op_id H (c_genesis c)) with cid. unfold mhas in E1.
    destruct (mget cid (ms_contracts s)) as [cs|] eqn:Ec.
    - unfold bind, ret in E1. exists s. auto.
    - unfold cinsert in E1. match type of E1 with context [if ?b then _ else _] => destruct b end.
      + unfold bind, put in E1. eexists. split; [|split; [|exact E1]]; [reflexivity|]. cbn [ms_contracts set_states].
        apply mget_insert_eq.
      + unfold bind, fail in E1. discriminate. }
  destruct Reg as (s0 & Ew & Ec & Eg).
  pose proof (follows_seq H cid r _ _ _ _ (follows_bundles H cid r c) (follows_extensions H cid r c)) as F2.
  destruct (follows_op H cid r (OOGenesis (c_genesis c)) eq_refl _ _ _ Eg Ec) as (mc1 & V1 & W1 & C1 & R1).
  destruct (F2 _ _ _ E C1) as (mc2 & V2 & W2 & C2 & R2).
  exists mc2. split; [|split; [exact W2|split; [exact C2|]]].
  - rewrite Ew in V1. change (import_ops H c r) with ([OOGenesis (c_genesis c)] ++ tl (import_ops H c r)).
    unfold evolve_all in *. rewrite rfold_app, V1. cbn [rbind]. rewrite W1 in V2. destruct mc1. exact V2.
  - intros x w ord [<-|Hx]; [discriminate|]. eapply R2; eauto.
Qed.

Lemma import_ops_carried H c r : (forall x w ord, In x (import_ops H c r) -> oo_status x = Some (w, ord) -> r w = Some ord) ->
  forall x, In x (import_ops H c r) <-> carried H c r x.
Proof.
  intros R x. split.
  - intros Hx. pose proof (R x) as Rx. specialize (fun w ord => Rx w ord Hx).
    destruct Hx as [<-|Hx]; [reflexivity|]. apply in_app_iff in Hx. destruct Hx as [Hx|Hx].
    + apply in_flat_map in Hx. destruct Hx as (wb & Hwb & Hx). apply in_map_iff in Hx. destruct Hx as (t & <- & Ht).
      simpl. exists wb. split; [exact Hwb|]. split; [exact Ht|]. split; [reflexivity|]. apply Rx. reflexivity.
    + apply in_flat_map in Hx. destruct Hx as (e & He & Hx).
      destruct (extension_witness c (op_id H e)) as [w|] eqn:Ew; [|destruct Hx]. destruct Hx as [<-|[]].
      simpl. split; [exact He|]. split; [apply extension_witness_spec, Ew|]. apply Rx. reflexivity.
  - intros Hc. destruct x as [g|t w ord|e w ord]; simpl in Hc.
    + subst g. left. reflexivity.
    + destruct Hc as (wb & Hwb & Ht & -> & Er). right. apply in_app_iff. left. apply in_flat_map. exists wb.
      split; [exact Hwb|]. apply in_map_iff. exists t. split; [|exact Ht]. unfold status. rewrite Er. reflexivity.
    + destruct Hc as (He & Hf & Er). right. apply in_app_iff. right. apply in_flat_map. exists e. split; [exact He|].
      apply extension_witness_spec in Hf. rewrite Hf. left. unfold status. rewrite Er. reflexivity.
Qed.

(** What is in the filter beforehand plays no part in the state. *)
Lemma evolve_filter H l f f' cs c : evolve_all H {| mc_filter := f; mc_state := cs |} l = Ok c ->
  exists c', evolve_all H {| mc_filter := f'; mc_state := cs |} l = Ok c' /\ mc_state c' = mc_state c /\
    (forall w, (mget w f = mget w f' \/ exists x ord, In x l /\ oo_status x = Some (w, ord)) ->
       mget w (mc_filter c) = mget w (mc_filter c')).
Proof.
  revert f f' cs. induction l as [|x l IH]; intros f f' cs E; unfold evolve_all in E; cbn [rfold] in E.
  - apply Ok_inj in E. subst c. eexists. split; [reflexivity|]. split; [reflexivity|].
    intros w [Hw|(x & ord & [] & _)]. exact Hw.
  - destruct (evolve_state H {| mc_filter := f; mc_state := cs |} x) as [[f1 cs1]|e|] eqn:Ex; cbn [rbind] in E; [|discriminate|discriminate].
    pose proof (evolve_state_inv _ _ _ _ Ex) as [Ea Ef]. cbn [mc_state mc_filter] in Ea, Ef.
    set (f1' := match oo_status x with Some (w, ord) => minsert w ord f' | None => f' end).
    destruct (IH f1 f1' cs1 E) as (c' & V & Es & G). exists c'. split; [|split; [exact Es|]].
    + unfold evolve_all. cbn [rfold]. unfold f1' in V.
      destruct x as [g|t w ord|t w ord]; cbn [evolve_state mc_state mc_filter oo_pub oo_operation oo_status] in *;
        rewrite Ea; cbn [rbind]; exact V.
    + intros w Hw. apply G. destruct (oo_status x) as [[w' ord']|] eqn:Hs.
      * subst f1. unfold f1'. rewrite !mget_insert. destruct (keqb_spec w w') as [->|Ne]; [auto|].
        destruct Hw as [Hw|(y & ord & [<-|Hy] & Sy)]; [auto| |right; eauto]. rewrite Hs in Sy. congruence.
      * subst f1. unfold f1'. destruct Hw as [Hw|(y & ord & [<-|Hy] & Sy)]; [auto|congruence|right; eauto].
Qed.

Lemma filter_ext_in' {A} (f g : A -> bool) l : (forall a, In a l -> f a = g a) -> filter f l = filter g l.
Proof. apply filter_ext_in. Qed.

Lemma reads_alike_filter f f' cs : csw cs -> (forall w, refers cs w = true -> mget w f = mget w f') ->
  reads_alike {| mc_filter := f; mc_state := cs |} {| mc_filter := f'; mc_state := cs |}.
Proof.
  intros W R.
  assert (Out : forall k a, In a (map out_assign (cs_outs k cs)) -> check_witness f a = check_witness f' a).
  { intros k a Ha. apply in_map_iff in Ha. destruct Ha as ([key p] & <- & Hin). unfold check_witness. cbn [out_assign oa_witness snd].
    destruct (snd p) as [w|] eqn:Ep; [|reflexivity]. rewrite R; [reflexivity|].
    eapply refers_out; [|exact Ep]. apply In_mget; [apply W|exact Hin]. }
  split; [reflexivity|]. split; [reflexivity|]. split; [|split].
  - intros k. unfold outs_all. cbn [mc_filter mc_state]. apply filter_ext_in. apply Out.
  - intros k o ty. unfold outs_at. cbn [mc_filter mc_state]. apply filter_ext_in. intros a Ha.
    apply filter_In in Ha. destruct Ha as [Ha _]. eapply Out; eauto.
  - intros ty. unfold global_values. cbn [mc_filter mc_state].
    destruct (mget ty (cs_global cs)) as [g|] eqn:Eg; [|reflexivity]. f_equal. f_equal.
    assert (Fm : forall l, (forall p, In p l -> In p (mg_known g)) ->
      filter_map (fun p : GlobalOut * N => match global_ord f (fst p) with Some ord => Some (ord, snd p) | None => None end) l =
      filter_map (fun p : GlobalOut * N => match global_ord f' (fst p) with Some ord => Some (ord, snd p) | None => None end) l).
    { induction l as [|[go d] l IH]; intros Sub; [reflexivity|]. cbn [filter_map fst snd].
      assert (Eo : global_ord f go = global_ord f' go).
      { assert (Hgo : mget go (mg_known g) = Some d).
        { apply In_mget; [exact (proj2 W ty g Eg)|]. apply Sub. left. reflexivity. }
        unfold global_ord. destruct (go_witness go) as [|w t|w t] eqn:Ew; [reflexivity|..];
          rewrite (R w); try reflexivity; eapply refers_global; eauto; rewrite Ew; reflexivity. }
      rewrite Eo, IH; [reflexivity|]. intros p Hp. apply Sub. right. exact Hp. }
    apply Fm. intros p Hp. apply in_rev, Hp.
Qed.

Lemma refers_inv cs w : csw cs -> msorted (cs_global cs) -> refers cs w = true ->
  (exists k key p, mget key (cs_outs k cs) = Some p /\ snd p = Some w) \/
  (exists ty g go d, mget ty (cs_global cs) = Some g /\ mget go (mg_known g) = Some d /\ op_witness (go_witness go) = Some w).
Proof.
  intros [So Sg] S E.
  assert (Out : forall k, existsb (fun a => by_witness w (snd a)) (mvals (cs_outs k cs)) = true ->
     exists k key p, mget key (cs_outs k cs) = Some p /\ snd p = Some w).
  { intros k Ee. apply existsb_exists in Ee. destruct Ee as (p & Hp & Eb). apply in_map_iff in Hp. destruct Hp as ([key p'] & E' & Hin).
    simpl in E'. subst p'. exists k, key, p. split; [apply In_mget; [apply So|exact Hin]|]. apply keqb_true in Eb. exact Eb. }
  unfold refers in E. repeat rewrite orb_true_iff in E. destruct E as [[[[E|E]|E]|E]|E].
  - right. apply existsb_exists in E. destruct E as (g & Hg & E). apply existsb_exists in E. destruct E as (go & Hgo & E).
    apply in_map_iff in Hg. destruct Hg as ([ty g'] & E' & Hin). simpl in E'. subst g'.
    apply in_map_iff in Hgo. destruct Hgo as ([go' d] & E' & Hd). simpl in E'. subst go'.
    apply keqb_true in E. exists ty, g, go, d.
    assert (Hg : mget ty (cs_global cs) = Some g) by (apply In_mget; assumption).
    split; [exact Hg|]. split; [apply In_mget; [eapply Sg; eauto|exact Hd]|exact E].
  - left. apply (Out KDeclarative), E.
  - left. apply (Out KFungible), E.
  - left. apply (Out KStructured), E.
  - left. apply (Out KAttachment), E.
Qed.

Lemma reveals_pub_status x w : op_witness (oo_pub x) = Some w -> exists ord, oo_status x = Some (w, ord).
Proof. destruct x; simpl; intros E; [discriminate|..]; apply Some_inj in E; subst; eauto. Qed.

Lemma built_refers H l schema cid cs w : built H l (cs_new schema cid) cs -> refers cs w = true ->
  exists x ord, In x l /\ oo_status x = Some (w, ord).
Proof.
  intros B R. apply refers_inv in R; [|apply B|apply B, mfrom_sorted].
  destruct R as [(k & key & p & Hk & Hp)|(ty & g & go & d & Hg & Hd & Hw)].
  - destruct (bt_out _ _ _ _ B k key p Hk) as [Hx|(x & Hx & Rx)]; [rewrite new_outs in Hx; discriminate|].
    destruct Rx as (? & ? & ? & ? & ? & _ & _ & _ & _ & _ & _ & W). simpl in W. rewrite Hp in W.
    destruct (reveals_pub_status x w (eq_sym W)) as [ord Ho]. eauto.
  - destruct (bt_glob _ _ _ _ B ty g Hg) as (g0 & H0 & _ & F & _). pose proof (new_known _ _ _ _ H0) as Z.
    destruct (F go d Hd) as [Hx|(x & Hx & vals & no & _ & _ & ->)]; [rewrite Z in Hx; discriminate|]. simpl in Hw.
    destruct (reveals_pub_status x w Hw) as [ord Ho]. eauto.
Qed.

(** A contract which was not known: reading the stock is reading what evolved from the
    operations of the consignment. *)
Theorem import_reads H c r s s' x : mget (op_id H (c_genesis c)) (ms_contracts s) = None ->
  update_from_consignment H c r s = (s', Ok tt) -> contract_state s' (op_id H (c_genesis c)) = Ok x ->
  exists mc, evolve_all H (mc_init (c_schema c) (op_id H (c_genesis c))) (import_ops H c r) = Ok mc /\
    mc_state x = mc_state mc /\ reads_alike x mc /\
    (forall o, In o (import_ops H c r) <-> carried H c r o) /\
    (forall o w ord, In o (import_ops H c r) -> oo_status o = Some (w, ord) -> r w = Some ord).
Proof.
  intros Hn E Ex. destruct (import_evolves H c r s s' E) as (mc0 & V & Ew & Ec & R).
  unfold merge_base in V. rewrite Hn in V.
  destruct (evolve_filter H (import_ops H c r) (ms_witnesses s) [] _ mc0 V) as (mc & V' & Es & G).
  exists mc. split; [exact V'|].
  apply contract_state_inv in Ex. destruct Ex as [Ec' Ef]. rewrite Ec in Ec'. apply Some_inj in Ec'.
  pose proof (evolve_all_built H _ (mc_init (c_schema c) (op_id H (c_genesis c))) mc (new_csw _ _) V') as B. cbn [mc_init mc_state] in B.
  split; [congruence|]. split; [|split; [apply import_ops_carried, R|exact R]].
  destruct x as [fx csx], mc as [fm csm]. cbn [mc_state mc_filter] in *. assert (Hx : csx = csm) by congruence. rewrite Hx in *.
  apply reads_alike_filter; [apply B|]. intros w Hw.
  rewrite Ef, mget_filter_key, Hw, Ew. apply G. right. eapply built_refers; eauto.
Qed.

Lemma reads_alike_refl c : reads_alike c c.
Proof. split; [|split; [|split; [|split]]]; reflexivity. Qed.

Theorem validated_imported H c r s s' x ops mc : collision_free H ->
  ops_sorted ops -> ops_one_witness H ops -> (forall o, In o ops <-> carried H c r o) ->
  mget (op_id H (c_genesis c)) (ms_contracts s) = None ->
  update_from_consignment H c r s = (s', Ok tt) -> contract_state s' (op_id H (c_genesis c)) = Ok x ->
  evolve_all H (mc_init (c_schema c) (op_id H (c_genesis c))) ops = Ok mc ->
  mc_state x = mc_state mc /\ reads_alike x mc.
Proof.
  intros HC HS HW Same Hn E Ex V.
  destruct (import_reads H c r s s' x Hn E Ex) as (mc' & V' & Es & Ra & Ci & R).
  assert (mc = mc').
  { eapply evolve_order; [exact HC|exact HS|exact HW| | |exact V|exact V'].
    - intros a b w o o' Ha Hb Sa Sb. apply Same, Ci in Ha, Hb.
      pose proof (R _ _ _ Ha Sa). pose proof (R _ _ _ Hb Sb). congruence.
    - intros o. rewrite Same, Ci. reflexivity. }
  subst mc'. auto.
Qed.

(** What can be read after evolving *)
Theorem evolve_outs H schema cid l c k a : collision_free H -> ops_sorted l -> ops_one_witness H l -> ops_one_status l ->
  evolve_all H (mc_init schema cid) l = Ok c ->
  (In a (outs_all k c) <->
   (exists x, In x l /\ reveals H (oo_operation x) (oo_pub x) k a) /\ given_live l (oa_witness a)).
Proof.
  intros HC HS HW HO E.
  pose proof (evolve_all_built H l (mc_init schema cid) c (new_csw _ _) E) as B. cbn [mc_init mc_state] in B.
  destruct (evolve_all_filter H l (mc_init schema cid) c msorted_nil E) as (_ & F & _ & A & _).
  assert (Get : mget (oa_opout a, oa_seal a) (cs_outs k (mc_state c)) = Some (oa_state a, oa_witness a) <->
                exists x, In x l /\ reveals H (oo_operation x) (oo_pub x) k a).
  { split.
    - intros Hg. destruct (bt_out _ _ _ _ B _ _ _ Hg) as [Hx|(x & Hx & Rx)]; [rewrite new_outs in Hx; discriminate|].
      exists x. split; [exact Hx|]. destruct a; exact Rx.
    - intros (x & Hx & Rx). assert (Rx0 : reveals H (oo_operation x) (oo_pub x) k (out_assign ((oa_opout a, oa_seal a), (oa_state a, oa_witness a)))) by (destruct a; exact Rx).
      destruct (bt_all _ _ _ _ B _ _ _ x Hx Rx0) as [p Hp]. transitivity (Some p); [exact Hp|]. f_equal.
      destruct (bt_out _ _ _ _ B _ _ _ Hp) as [Hy|(y & Hy & Ry)]; [rewrite new_outs in Hy; discriminate|].
      assert (So : same_out a (out_assign ((oa_opout a, oa_seal a), p))) by (split; reflexivity).
      destruct (reveals_fun _ _ _ _ _ _ _ _ _ HC (HS x Hx) (HS y Hy) Rx Ry So)
        as (_ & Est & Ei & seal & (ty & ta & no & st & Ht & Hn) & O1 & O2).
      destruct p as [sp wp]. simpl in Est. subst sp. f_equal.
      destruct Rx as (? & ? & ? & ? & ? & _ & _ & _ & _ & _ & _ & W1).
      destruct Ry as (? & ? & ? & ? & ? & _ & _ & _ & _ & _ & _ & W2). simpl in W2. subst wp. rewrite W1.
      destruct (HW x y Hx Hy Ei) as [Ew|Ew]; [congruence|].
      symmetry. eapply seal_output_witness; [|exact O1|exact O2]. eapply Ew; eauto. }
  rewrite <- Get. unfold outs_all. rewrite filter_In, in_map_iff.
  assert (Ha : (exists q, out_assign q = a /\ In q (cs_outs k (mc_state c))) <->
               mget (oa_opout a, oa_seal a) (cs_outs k (mc_state c)) = Some (oa_state a, oa_witness a)).
  { split.
    - intros ([[o sl] [st w]] & <- & Hin). apply In_mget; [apply B|exact Hin].
    - intros Hg. apply mget_In in Hg. exists ((oa_opout a, oa_seal a), (oa_state a, oa_witness a)). split; [destruct a; reflexivity|exact Hg]. }
  rewrite Ha. unfold check_witness, given_live. destruct (oa_witness a) as [w|]; [|tauto].
  apply and_iff_compat_l. split.
  - destruct (mget w (mc_filter c)) as [ord|] eqn:Ew; [|discriminate]. intros Hv. apply ord_valid_spec in Hv.
    destruct (F w ord Ew) as [Hx|(x & Hx & Sx)]; [discriminate|]. eauto.
  - intros (x & ord & Hx & Sx & Hv). destruct (A x w ord Hx Sx) as [ord' Ho]. rewrite Ho.
    destruct (F w ord' Ho) as [Hy|(y & Hy & Sy)]; [discriminate|].
    rewrite (HO x y w ord ord' Hx Hy Sx Sy) in Hv. apply ord_valid_spec, Hv.
Qed.

Lemma filter_map_In {A B} (f : A -> option B) l b : In b (filter_map f l) <-> exists a, In a l /\ f a = Some b.
Proof.
  induction l as [|a l IH]; cbn [filter_map].
  - split; [intros []|intros (a & [] & _)].
  - destruct (f a) as [b'|] eqn:Ea.
    + split.
      * intros [<-|Hb]; [exists a; simpl; auto|]. apply IH in Hb. destruct Hb as (x & Hx & Ex). exists x. simpl; auto.
      * intros (x & [<-|Hx] & Ex); [left; congruence|right; apply IH; eauto].
    + rewrite IH. split; intros (x & Hx & Ex); [exists x; simpl; auto|].
      destruct Hx as [<-|Hx]; [congruence|eauto].
Qed.

Theorem evolve_globals H schema cid l c ty : collision_free H -> ops_sorted l -> ops_one_status l ->
  evolve_all H (mc_init schema cid) l = Ok c ->
  match global_values c ty with
  | None => ~ exists limit, In (ty, limit) (sch_globals schema)
  | Some vs => exists limit, In (ty, limit) (sch_globals schema) /\ len vs <= limit /\
      (forall ord d, In (ord, d) vs -> exists x go, In x l /\ shows H (oo_operation x) (oo_pub x) ty go d /\ stands x go ord) /\
      (len vs < limit -> forall x go d, In x l -> shows H (oo_operation x) (oo_pub x) ty go d ->
         exists ord, stands x go ord /\ In (ord, d) vs)
  end.
Proof.
  intros HC HS HO E.
  pose proof (evolve_all_built H l (mc_init schema cid) c (new_csw _ _) E) as B. cbn [mc_init mc_state] in B.
  destruct (evolve_all_filter H l (mc_init schema cid) c msorted_nil E) as (_ & F & _ & A & _).
  unfold global_values. destruct (mget ty (cs_global (mc_state c))) as [g|] eqn:Eg.
  2: { intros Hl. apply (new_types schema cid) in Hl. destruct Hl as [g Hg].
       destruct (bt_types _ _ _ _ B ty g Hg) as [g' Hg']. congruence. }
  destruct (bt_glob _ _ _ _ B ty g Eg) as (g0 & H0 & L0 & F0 & _ & D0).
  pose proof (new_known _ _ _ _ H0) as Z.
  assert (Hl : In (ty, mg_limit g) (sch_globals schema)).
  { rewrite L0. apply mfrom_get_In in H0. apply in_map_iff in H0. destruct H0 as ([ty' lim] & E0 & Hin).
    injection E0 as <- <-. exact Hin. }
  set (f := fun p : GlobalOut * N => match global_ord (mc_filter c) (fst p) with Some ord => Some (ord, snd p) | None => None end).
  assert (St : forall x go d, In x l -> shows H (oo_operation x) (oo_pub x) ty go d ->
     exists ord, global_ord (mc_filter c) go = Some ord /\ stands x go ord).
  { intros x go d Hx (vals & no & _ & _ & ->). unfold global_ord, stands. cbn [go_witness go_index go_op go_nonce].
    pose proof (fun w o => A x w o Hx) as Ax.
    destruct x as [gg|t w o|e w o]; cbn [oo_pub]; [eauto|..];
      (destruct (Ax w o eq_refl) as [o' Ho]; rewrite Ho;
       destruct (F w o' Ho) as [Hy|(y & Hy & Sy)]; [discriminate|];
       rewrite (HO _ y w o o' Hx Hy eq_refl Sy); eauto). }
  exists (mg_limit g). split; [exact Hl|].
  split; [unfold len; rewrite firstn_length; lia|]. split.
  - intros ord d Hin. assert (Hin' : In (ord, d) (filter_map f (rev (mg_known g)))).
    { rewrite <- (firstn_skipn (N.to_nat (mg_limit g))). apply in_app_iff. left. exact Hin. }
    apply filter_map_In in Hin'. destruct Hin' as ([go d'] & Hp & Ef). unfold f in Ef. cbn [fst snd] in Ef.
    destruct (global_ord (mc_filter c) go) as [ord'|] eqn:Eo; [|discriminate]. injection Ef as -> ->.
    apply in_rev in Hp. apply In_mget in Hp; [|exact (proj2 (bt_csw _ _ _ _ B) ty g Eg)].
    destruct (F0 go d Hp) as [Hx|(x & Hx & Sx)]; [rewrite Z in Hx; discriminate|].
    exists x, go. split; [exact Hx|]. split; [exact Sx|].
    destruct (St x go d Hx Sx) as (ord2 & Eo2 & S2). congruence.
  - intros Hlt x go d Hx Sx. destruct (St x go d Hx Sx) as (ord & Eo & So). exists ord. split; [exact So|].
    destruct (D0 go d x Hx Sx) as [d' Hd'].
    assert (d' = d).
    { destruct (F0 go d' Hd') as [Hy|(y & Hy & Sy)]; [rewrite Z in Hy; discriminate|].
      eapply shows_fun; [exact HC| | |exact Sy|exact Sx]; apply HS; assumption. }
    subst d'. apply mget_In in Hd'.
    assert (Hin : In (ord, d) (filter_map f (rev (mg_known g)))).
    { apply filter_map_In. exists (go, d). split; [apply in_rev; rewrite rev_involutive; exact Hd'|].
      unfold f. cbn [fst snd]. rewrite Eo. reflexivity. }
    rewrite firstn_all2; [exact Hin|]. unfold len in Hlt. rewrite firstn_length in Hlt. fold f in Hlt. lia.
Qed.
End EvolveProofs.
