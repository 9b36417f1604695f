(** * Proofs about payments which can be made: the other contracts *)
From Verif Require Import Base Core InvoiceModel SupplModel ContainerModel PIndexModel StateModel StashModel StockModel ConsignModel IfaceModel
  BuilderModel BuilderSpec BuilderProofs BuilderCalls BuilderComplete BuilderProps ComposeModel ComposeSpec ComposeProofs ComposeMain ComposePaid ComposeBlank
  PayableSpec PayableProofs PayableMain.
Local Open Scope N_scope.

Lemma blank_builder_tags D st id iface X b g : blank_builder D st id iface = Ok (X, b) -> stash_genesis st id = Ok g ->
  (exists r, bc_schema X = df_schema D r) /\ side X id BLANK b (df_tags D g) [] [].
Proof.
  intros E Eg. unfold blank_builder in E. apply rbind_ok in E as (si & _ & E). apply rbind_ok in E as (i & _ & E). destruct (si_impls si); [discriminate|].
  apply rbind_ok in E as (g' & Eg' & E). rewrite co_stash_ok, Eg in Eg'. apply Ok_inj in Eg'. subst g'.
  apply rbind_ok in E as (ex & _ & E). apply rbind_ok in E as (q & _ & E). cbv zeta in E.
  apply rbind_ok in E as (b0 & E5 & E). apply Ok_inj in E. injection E as <- <-. split; [exists (si_schema si); reflexivity|].
  exact (add_tags_side _ id BLANK _ _ _ _ (side_new _ id BLANK) E5).
Qed.

Lemma caf_can s cid outs : (exists m, contract_assignments_for (sk_state s) cid outs = Ok m) <-> exists c, contract_state (sk_state s) cid = Ok c.
Proof.
  unfold contract_assignments_for. split.
  - intros (m & E). apply rbind_ok in E as (c & E & _). rewrite co_state_ok in E. eauto.
  - intros (c & E). rewrite E. cbn. eauto.
Qed.

Section Blank.
Context (H : Hashes) (D : Defs) (P : Pedersen) (s : Stock) (ch : Choices) (od : Orders).

Section One.
Context (X : BuildCtx) (method : CloseMethod) (layer : Layer1) (id : N) (T : list (N * N)).
Context (Hsz : len (fs_owned (bc_schema X)) <= 255).

Lemma blank_spend_can w l x : binv D s ch X method layer id T w l -> in_schema X T x -> placed ch use_blank id (velocity_for D s id) x ->
  len (with_method (os_method (in_seal x)) (l ++ [x])) <= 255 ->
  exists w', blank_spend D s ch X method layer id w x = Ok w'.
Proof.
  intros W (Hos & Htag) Hpl Hlen. destruct (W (os_method (in_seal x))) as (O & F & S).
  rewrite with_method_snoc, keqb_refl, len_app in Hlen. change (len [x]) with 1 in Hlen.
  destruct x as [seal [o st]]. unfold blank_spend. destruct (out_can D s ch method layer id (UBlank seal o) (oo_ty o) Hpl) as (out & Eo). rewrite Eo. cbn [rbind].
  cbn [in_seal fst] in *. unfold in_ty, in_out, in_state in *. cbn [fst snd] in *.
  assert (Hb : forall b, side X id BLANK b T O (map snd (with_method (os_method seal) l)) ->
    exists b', (let! b := co_builder (t_call X b (TInput o st)) in co_builder (t_call X b (TOwnedRaw (oo_ty o) out st))) = Ok b').
  { intros b Sb. destruct (side_input_can X Hsz _ _ _ _ _ _ o st Sb) as (b1 & E1); [rewrite len_map; apply N.le_succ_l; rewrite <- N.add_1_r; exact Hlen|].
    rewrite E1. cbn [co_builder rmap_err rbind]. pose proof (side_input _ _ _ _ _ _ _ _ _ _ Sb E1) as S1.
    destruct (side_owned_can X Hsz _ _ _ _ _ _ (oo_ty o) out st S1) as (b2 & E2); [|exact Hos|exact Htag|rewrite E2; cbn; eauto].
    rewrite <- (len_forall2 _ _ _ F). eapply N.lt_le_trans; [apply N.le_succ_l; rewrite <- N.add_1_r; exact Hlen|discriminate]. }
  destruct (os_method seal); destruct (Hb _ S) as (b' & Eb); rewrite Eb; cbn; eauto.
Qed.

Lemma blank_spends_can rest : forall w l, binv D s ch X method layer id T w l -> (forall x, In x rest -> in_schema X T x) ->
  (forall x, In x rest -> placed ch use_blank id (velocity_for D s id) x) -> inputs_fit (l ++ rest) ->
  exists w', rfold (blank_spend D s ch X method layer id) w rest = Ok w'.
Proof.
  induction rest as [|x rest IH]; intros w l W Hin Hpl Hf; [exists w; reflexivity|].
  change (x :: rest) with ([x] ++ rest) in Hf. rewrite app_assoc in Hf.
  assert (Hl1 : len (with_method (os_method (in_seal x)) (l ++ [x])) <= 255).
  { pose proof (Hf (os_method (in_seal x))) as Q. rewrite len_with_app in Q. lia. }
  destruct (blank_spend_can w l x W (Hin x (or_introl eq_refl)) (Hpl x (or_introl eq_refl)) Hl1) as (w1 & E1).
  assert (W1 : binv D s ch X method layer id T w1 (l ++ [x])).
  { apply (blank_spends_inv D s ch X method layer id T [x] w l w1 W). cbn [rfold]. rewrite E1. reflexivity. }
  destruct (IH w1 (l ++ [x]) W1 (fun y Hy => Hin y (or_intror Hy)) (fun y Hy => Hpl y (or_intror Hy)) Hf) as (w' & Ew).
  exists w'. cbn [rfold]. rewrite E1. exact Ew.
Qed.
End One.

Lemma back_placed method layer id l O x : Forall2 (back D s ch method layer id) l O -> In x l -> placed ch use_blank id (velocity_for D s id) x.
Proof.
  intros F Hi. induction F as [|y r l O M F IH]; [destruct Hi|]. destruct Hi as [<-|Hi]; [|exact (IH Hi)].
  destruct M as (_ & (v & Ev & _) & _). unfold placed. congruence.
Qed.

Definition needs (id : N) (l : list Inp) : Prop := l <> [] /\ inputs_fit l /\ forall x, In x l -> placed ch use_blank id (velocity_for D s id) x.

Lemma with_method_In l x : In x l -> In x (with_method (os_method (in_seal x)) l).
Proof. intros Hx. apply In_with_method. auto. Qed.
Lemma with_nil l : (forall m, with_method m l = []) -> l = [].
Proof. intros Hm. destruct l as [|x l]; [reflexivity|]. pose proof (with_method_In (x :: l) x (or_introl eq_refl)) as Hi. rewrite Hm in Hi. destruct Hi. Qed.

Lemma blank_for_iff method layer iface prev id m l X b g : sane D P od ->
  contract_assignments_for (sk_state s) id (map os_outpoint prev) = Ok m -> spent s id prev l ->
  blank_builder D (sk_stash s) id iface = Ok (X, b) -> stash_genesis (sk_stash s) id = Ok g -> (forall x, In x l -> in_schema X (df_tags D g) x) ->
  (exists d, blank_for H D P s ch od method layer iface (id, m) = Ok d) <-> needs id l.
Proof.
  intros (Ho & Hsz & HP) Em Hsp Eb Eg Hin. destruct (blank_builder_tags _ _ _ _ _ _ _ Eb Eg) as ((r & Hr) & S). set (T := df_tags D g) in *.
  assert (Hs255 : len (fs_owned (bc_schema X)) <= 255) by (rewrite Hr; apply Hsz).
  destruct (caf_ok _ _ _ _ _ Em Hsp) as [W Hp]. pose proof (Permutation_trans (listed_perm od id m Ho) Hp) as Hl. destruct Hsp as [ND _].
  set (lst := listed od id m) in *.
  assert (W0 : binv D s ch X method layer id T (b, b) []) by (intros []; exists []; split; try constructor; exact S).
  assert (Hinl : forall x, In x lst -> in_schema X T x) by (intros x Hx; apply Hin; apply (Permutation_in _ Hl); exact Hx).
  assert (NDl : forall me, NoDup (map fst (map snd (with_method me lst)))).
  { intros me. rewrite map_map. change (NoDup (map in_out (with_method me lst))). apply NoDup_map_filter.
    eapply Permutation_NoDup; [apply Permutation_map, Permutation_sym; exact Hl|exact ND]. }
  unfold blank_for. rewrite Eb. cbn [rbind fst snd]. change (listed od id m) with lst.
  assert (Hafter : forall w, rfold (blank_spend D s ch X method layer id) (b, b) lst = Ok w ->
    inputs_fit l /\ (forall x, In x l -> placed ch use_blank id (velocity_for D s id) x) /\
    forall me, has_inputs (match me with TapretFirst => fst w | OpretFirst => snd w end) = match with_method me l with [] => false | _ => true end /\
      (with_method me l <> [] -> exists i, finish H P od (match me with TapretFirst => fst w | OpretFirst => snd w end) (outputs_with od id m (of_method me)) = Ok i)).
  { intros w Ew. pose proof (blank_spends_inv D s ch X method layer id T lst _ _ _ W0 Ew) as W1. cbn [app] in W1.
    assert (Hfit : inputs_fit l).
    { intros me. destruct (W1 me) as (O & _ & Sd). pose proof (side_inputs_le _ _ _ _ _ _ _ Sd (NDl me)) as Q. rewrite len_map in Q.
      rewrite <- (len_perm _ _ (with_method_perm me _ _ Hl)). exact Q. }
    split; [exact Hfit|]. split.
    - intros x Hx. apply (Permutation_in _ (Permutation_sym Hl)) in Hx. destruct (W1 (os_method (in_seal x))) as (O & F & _). eapply back_placed; [exact F|]. apply with_method_In. exact Hx.
    - intros me. destruct (W1 me) as (O & F & Sd). pose proof (with_method_perm me _ _ Hl) as Hlm. split.
      + rewrite (side_inputs _ _ _ _ _ _ _ Sd). destruct (with_method me lst) as [|y q] eqn:Ey.
        * apply Permutation_nil in Hlm. rewrite Hlm. reflexivity.
        * cbn. destruct (with_method me l); [|reflexivity]. apply Permutation_sym, Permutation_nil in Hlm. discriminate.
      + intros Hne. eapply (finish_can X Hs255 H P od id BLANK _ T O (with_method me lst) T m l me (of_method me) HP Ho W Hp (fun _ => eq_refl)).
        * intros En. apply Hne. rewrite En in Hlm. apply Permutation_nil in Hlm. exact Hlm.
        * exact Hlm.
        * rewrite (len_perm _ _ Hlm). apply Hfit.
        * exact Sd.
        * intros x Hx. apply In_with_method in Hx as [Hx _]. exact (Hinl x Hx). }
  split.
  - intros (d & E). apply rbind_ok in E as (w & Ew & E). destruct (Hafter w Ew) as (A1 & A2 & A3). split; [|auto]. intros ->. destruct (A3 TapretFirst) as [I1 _], (A3 OpretFirst) as [I2 _].
    cbn in I1, I2. cbn [rfold] in E. rewrite I1, I2 in E. cbn in E. discriminate.
  - intros (Hne & Hfit & Hpl). destruct (blank_spends_can X method layer id T Hs255 lst (b, b) [] W0 Hinl) as (w & Ew).
    + intros x Hx. apply Hpl. apply (Permutation_in _ Hl). exact Hx.
    + intros me. cbn [app]. rewrite (len_perm _ _ (with_method_perm me _ _ Hl)). apply Hfit.
    + rewrite Ew. cbn [rbind]. destruct (Hafter w Ew) as (_ & _ & A3). destruct (A3 TapretFirst) as [I1 F1], (A3 OpretFirst) as [I2 F2]. cbn [rfold]. rewrite I1, I2.
      destruct (with_method TapretFirst l) as [|x1 q1] eqn:M1, (with_method OpretFirst l) as [|x2 q2] eqn:M2.
      * exfalso. apply Hne. apply with_nil. intros []; assumption.
      * destruct (F2 ltac:(discriminate)) as (i2 & E2). cbn [rbind]. rewrite E2. cbn. eauto.
      * destruct (F1 ltac:(discriminate)) as (i1 & E1). rewrite E1. cbn. eauto.
      * destruct (F1 ltac:(discriminate)) as (i1 & E1), (F2 ltac:(discriminate)) as (i2 & E2). rewrite E1. cbn [rbind app]. rewrite E2. cbn. eauto.
Qed.

Lemma spent_state_can cid outs : (forall id, In id (contracts_assigning (sk_index s) (sfrom outs)) -> id <> cid -> exists c, contract_state (sk_state s) id = Ok c) ->
  exists spm, spent_state s cid outs = Ok spm.
Proof.
  unfold spent_state. generalize (contracts_assigning (sk_index s) (sfrom outs)) as ids. intros ids. generalize (@nil (N * Spending)) as acc. induction ids as [|id ids IH]; intros acc Hc; [cbn; eauto|].
  cbn [rfold]. destruct (N.eqb_spec id cid) as [->|Ne].
  - cbn [rbind]. apply IH. intros i Hi. apply Hc. right. exact Hi.
  - destruct (proj2 (caf_can s id outs) (Hc id (or_introl eq_refl) Ne)) as (m & Em). rewrite Em. cbn [rbind]. apply IH. intros i Hi. apply Hc. right. exact Hi.
Qed.

Lemma blanks_for_iff method layer iface ms : forall acc,
  (exists blanks, rfold (fun acc p => let! d := blank_for H D P s ch od method layer iface p in ok_or TooManyBlanks (cpush_back (U24MAX - 1) d acc)) acc ms = Ok blanks) <->
  (forall p, In p ms -> exists d, blank_for H D P s ch od method layer iface p = Ok d) /\ (ms <> [] -> len acc + len ms <= U24MAX - 1).
Proof.
  induction ms as [|p ms IH]; intros acc; cbn [rfold].
  { split; [intros _|intros _; eauto]. split; [intros p []|intros E; contradiction]. }
  split.
  - intros (blanks & E). apply rbind_ok in E as (acc1 & E1 & E). apply rbind_ok in E1 as (d & Ed & E1). apply ok_or_ok in E1. unfold cpush_back in E1.
    destruct (N.ltb_spec (len acc) (U24MAX - 1)) as [Hlt|]; [|discriminate]. injection E1 as <-. destruct (proj1 (IH _) (ex_intro _ _ E)) as [H1 H2]. split.
    + intros q [<-|Hq]; [eauto|exact (H1 q Hq)].
    + intros _. unfold len in *. cbn [length]. destruct ms as [|q ms]; [cbn; lia|]. specialize (H2 ltac:(discriminate)). rewrite app_length in H2. cbn [length] in *. lia.
  - intros [Hd Hl]. destruct (Hd p (or_introl eq_refl)) as (d & Ed). specialize (Hl ltac:(discriminate)). rewrite Ed. cbn [rbind]. unfold cpush_back.
    unfold len in *. cbn [length] in Hl. destruct (N.ltb_spec (N.of_nat (length acc)) (U24MAX - 1)) as [_|]; [|lia]. cbn [ok_or rbind]. apply IH. split.
    + intros q Hq. apply Hd. right. exact Hq.
    + intros _. rewrite app_length. cbn [length]. lia.
Qed.
End Blank.
