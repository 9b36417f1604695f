(** * Proofs that payments do not panic *)
From Verif Require Import Base Core InvoiceModel SupplModel ContainerModel PIndexModel StateModel StashModel StockModel ConsignModel IfaceModel
  BuilderModel BuilderSpec BuilderProofs BuilderCalls BuilderComplete BuilderProps ComposeModel ComposeSpec ComposeProofs ComposeMain ComposePaid ComposeBlank ComposeErr
  PayableSpec PayableProofs PayableMain PayableBlank.
Local Open Scope N_scope.

Definition plain (X : BuildCtx) (c : TCall) : Prop :=
  match c with
  | TInput _ _ => True
  | TOwnedRaw ty _ _ | TFungibleRaw ty _ _ _ | TDataRaw ty _ _ _ => mget ty (fs_owned (bc_schema X)) <> None
  | _ => False
  end.
Lemma plain_np X b c : plain X c -> t_call X b c <> Panic.
Proof.
  destruct c; cbn [plain t_call]; intros Hk; try contradiction.
  - unfold add_input. apply rbind_no_panic; [apply ok_or_no_panic|discriminate].
  - unfold tb_add_owned_raw. apply rbind_no_panic.
    + destruct st; try discriminate. apply rbind_no_panic; [apply ok_or_no_panic|]. intros t _. destruct (t =? tag); discriminate.
    + intros _ _. apply rbind_no_panic; [apply raw_no_panic; exact Hk|discriminate].
  - unfold tb_add_fungible_raw. apply rbind_no_panic; [apply ok_or_no_panic|]. intros t _. apply rbind_no_panic; [apply fungible_raw_no_panic; exact Hk|discriminate].
  - unfold tb_add_data_raw. apply rbind_no_panic; [apply data_raw_no_panic; exact Hk|discriminate].
Qed.
Lemma co_builder_np {A} (r : result BuilderError A) : r <> Panic -> co_builder r <> Panic.
Proof. destruct r; cbn; congruence. Qed.
Lemma wk_call_np X main c w : plain X c -> wk_call X main c w <> Panic.
Proof. intros Hp. unfold wk_call. apply rbind_no_panic; [apply co_builder_np, plain_np; exact Hp|discriminate]. Qed.
Lemma out_np D s ch u method layer cid ty : output_for D s ch u method layer cid ty <> Panic.
Proof. unfold output_for. cbv zeta. apply rbind_no_panic; [apply ok_or_no_panic|discriminate]. Qed.
Lemma schema_known X T x : in_schema X T x -> mget (in_ty x) (fs_owned (bc_schema X)) <> None.
Proof. intros ((os & Ho & _) & _). congruence. Qed.

Section Panic.
Context (H : Hashes) (D : Defs) (P : Pedersen) (wrap : bool) (s : Stock) (ch : Choices) (od : Orders).

Lemma spend_np X method layer cid a tt lookup T w l x : winv D s ch X method layer cid a tt lookup T w l -> in_schema X T x -> total a (l ++ [x]) <= U64MAX ->
  spend D wrap s ch X method layer cid a lookup w x <> Panic.
Proof.
  intros W Hx Htot. pose proof (wi_sum _ _ _ _ _ _ _ _ _ _ _ _ _ W) as Hs. pose proof (wi_sum_alt _ _ _ _ _ _ _ _ _ _ _ _ _ W) as Hsa.
  pose proof (total_split a method l) as Hsp. rewrite total_app, total_one in Htot. apply schema_known in Hx.
  destruct x as [seal [o st]]. unfold spend. unfold in_ty, in_out in Hx. cbn [fst snd] in Hx.
  apply rbind_no_panic; [apply wk_call_np; exact Logic.I|]. intros w1 E1. unfold wk_call in E1. apply rbind_ok in E1 as (b1 & _ & E1). apply Ok_inj in E1. subst w1.
  destruct (N.eqb_spec (oo_ty o) a) as [Ety|Ety]; cbn [negb].
  - assert (Hax : amount_in a (seal, (o, st)) = match st with RAmount v _ _ => v | _ => 0 end).
    { unfold amount_in, in_ty, in_out, in_state. cbn [fst snd]. rewrite Ety, N.eqb_refl. reflexivity. }
    destruct st as [|v bl tag|v salt|f salt]; try discriminate. rewrite Hax in Htot. cbn [wk_sum wk_sum_alt].
    rewrite add64_can by lia. cbn [rbind]. destruct (of_method _ _); [discriminate|]. rewrite add64_can by lia. discriminate.
  - apply rbind_no_panic; [apply out_np|]. intros out _. apply wk_call_np. exact Hx.
Qed.
Lemma spends_np X method layer cid a tt lookup T rest : forall w l, winv D s ch X method layer cid a tt lookup T w l -> (forall x, In x rest -> in_schema X T x) ->
  total a (l ++ rest) <= U64MAX -> rfold (spend D wrap s ch X method layer cid a lookup) w rest <> Panic.
Proof.
  induction rest as [|x rest IH]; intros w l W Hin Ht; [discriminate|]. cbn [rfold].
  change (x :: rest) with ([x] ++ rest) in Ht. rewrite app_assoc in Ht. assert (Ht1 : total a (l ++ [x]) <= U64MAX) by (rewrite total_app in Ht; lia).
  apply rbind_no_panic; [eapply spend_np; [exact W|apply Hin; left; reflexivity|exact Ht1]|]. intros w1 E1.
  apply (IH w1 (l ++ [x])); [exact (spend_inv _ _ _ _ _ _ _ _ _ _ _ _ _ _ _ _ W (or_intror Ht1) E1)|intros y Hy; apply Hin; right; exact Hy|exact Ht].
Qed.
Lemma pay_np X method layer cid a tt lookup T w l ben st : winv D s ch X method layer cid a tt lookup T w l -> mget a (fs_owned (bc_schema X)) <> None ->
  match st with ISAmount _ | ISData _ => True | _ => False end -> pay D wrap s ch X method layer cid a ben st w <> Panic.
Proof.
  intros W Ha Hst. pose proof (wi_sum _ _ _ _ _ _ _ _ _ _ _ _ _ W) as Hs. pose proof (wi_sum_alt _ _ _ _ _ _ _ _ _ _ _ _ _ W) as Hsa. pose proof (total_split a method l) as Hsp.
  destruct st as [|amt|al|]; try contradiction; cbn [pay].
  - unfold pay_amount. destruct (_ <? _); [discriminate|]. apply rbind_no_panic.
    { unfold sub64. destruct (N.leb_spec (wk_sum_alt w) (wk_sum w)) as [|Hlt]; [discriminate|lia]. }
    intros sm _. destruct (if sm <? amt then _ else _) as [pm pa].
    assert (Hopt : forall (b : bool) main seal v r w0, (if b then wk_call X main (TFungibleRaw a seal v r) w0 else Ok w0) <> Panic).
    { intros [] main seal v r w0; [|discriminate]. apply wk_call_np. exact Ha. }
    apply rbind_no_panic; [apply Hopt|]. intros w1 _. apply rbind_no_panic; [apply Hopt|]. intros w2 _. apply rbind_no_panic; [apply out_np|]. intros c _.
    apply rbind_no_panic; [apply Hopt|]. intros w3 _. apply Hopt.
  - unfold pay_data. destruct (existsb _ _); [|discriminate]. apply wk_call_np. exact Ha.
Qed.

Lemma caf_np cid outs : contract_assignments_for (sk_state s) cid outs <> Panic.
Proof. unfold contract_assignments_for. apply rbind_no_panic; [|discriminate]. unfold contract_state. destruct (mget cid _); discriminate. Qed.

Lemma blank_spends_np X method layer id T rest w : (forall x, In x rest -> in_schema X T x) -> rfold (blank_spend D s ch X method layer id) w rest <> Panic.
Proof.
  revert w. induction rest as [|x rest IH]; intros w Hin; [discriminate|]. cbn [rfold]. apply rbind_no_panic; [|intros w1 _; apply IH; intros y Hy; apply Hin; right; exact Hy].
  pose proof (schema_known _ _ _ (Hin x (or_introl eq_refl))) as Hx. destruct x as [seal [o st]]. unfold in_ty, in_out in Hx. cbn [fst snd] in Hx. unfold blank_spend.
  apply rbind_no_panic; [apply out_np|]. intros out _.
  assert (Hb : forall b, (let! b := co_builder (t_call X b (TInput o st)) in co_builder (t_call X b (TOwnedRaw (oo_ty o) out st))) <> Panic).
  { intros b. apply rbind_no_panic; [apply co_builder_np, plain_np; exact Logic.I|]. intros b' _. apply co_builder_np, plain_np. exact Hx. }
  destruct (os_method seal); (apply rbind_no_panic; [apply Hb|discriminate]).
Qed.

Lemma blank_for_np method layer iface prev id m l X b g : sane D P od ->
  contract_assignments_for (sk_state s) id (map os_outpoint prev) = Ok m -> spent s id prev l ->
  blank_builder D (sk_stash s) id iface = Ok (X, b) -> stash_genesis (sk_stash s) id = Ok g -> (forall x, In x l -> in_schema X (df_tags D g) x) ->
  l <> [] -> blank_for H D P s ch od method layer iface (id, m) <> Panic.
Proof.
  intros Hsane Em Hsp Eb Eg Hin Hne Ep. pose proof Hsane as (Ho & Hsz & HP). destruct (blank_builder_tags _ _ _ _ _ _ _ Eb Eg) as ((r & Hr) & S). set (T := df_tags D g) in *.
  destruct (caf_ok _ _ _ _ _ Em Hsp) as [W Hp]. pose proof (Permutation_trans (listed_perm od id m Ho) Hp) as Hl.
  assert (Hinl : forall x, In x (listed od id m) -> in_schema X T x) by (intros x Hx; apply Hin; apply (Permutation_in _ Hl); exact Hx).
  destruct (rfold (blank_spend D s ch X method layer id) (b, b) (listed od id m)) as [w|e|] eqn:Ew.
  - assert (W0 : binv D s ch X method layer id T (b, b) []) by (intros []; exists []; split; try constructor; exact S).
    pose proof (blank_spends_inv D s ch X method layer id T (listed od id m) _ _ _ W0 Ew) as W1. cbn [app] in W1.
    assert (Hn : needs D s ch id l).
    { split; [exact Hne|]. split.
      - intros me. destruct (W1 me) as (O & _ & Sd).
        assert (ND : NoDup (map fst (map snd (with_method me (listed od id m))))).
        { rewrite map_map. change (NoDup (map in_out (with_method me (listed od id m)))). apply NoDup_map_filter.
          eapply Permutation_NoDup; [apply Permutation_map, Permutation_sym; exact Hl|apply Hsp]. }
        pose proof (side_inputs_le _ _ _ _ _ _ _ Sd ND) as Q. rewrite len_map in Q. rewrite <- (len_perm _ _ (with_method_perm me _ _ Hl)). exact Q.
      - intros x Hx. apply (Permutation_in _ (Permutation_sym Hl)) in Hx. destruct (W1 (os_method (in_seal x))) as (O & F & _). eapply back_placed; [exact F|]. apply with_method_In. exact Hx. }
    destruct (proj2 (blank_for_iff H D P s ch od method layer iface prev id m l X b g Hsane Em Hsp Eb Eg Hin) Hn) as (d & Ed). congruence.
  - unfold blank_for in Ep. rewrite Eb in Ep. cbn [rbind fst snd] in Ep. rewrite Ew in Ep. discriminate.
  - exact (blank_spends_np X method layer id T _ _ Hinl Ew).
Qed.

Lemma blanks_np method layer iface ms : (forall p, In p ms -> blank_for H D P s ch od method layer iface p <> Panic) -> blanks_for H D P s ch od method layer iface ms <> Panic.
Proof.
  unfold blanks_for. generalize (@nil (Dichotomy TransitionInfo)) as acc. induction ms as [|p ms IH]; intros acc Hp; [discriminate|]. cbn [rfold].
  apply rbind_no_panic; [|intros acc1 _; apply IH; intros q Hq; apply Hp; right; exact Hq].
  apply rbind_no_panic; [apply Hp; left; reflexivity|]. intros d _. apply ok_or_no_panic.
Qed.
End Panic.
