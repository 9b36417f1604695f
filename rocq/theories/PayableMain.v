(** * Proofs about payments which can be made: the contract of the invoice *)
From Verif Require Import Base Core InvoiceModel SupplModel ContainerModel PIndexModel StateModel StashModel StockModel ConsignModel IfaceModel
  BuilderModel BuilderSpec BuilderProofs BuilderCalls BuilderComplete BuilderProps ComposeModel ComposeSpec ComposeProofs ComposeMain ComposePaid ComposeBlank
  PayableSpec PayableProofs.
Local Open Scope N_scope.

Lemma update_kind st b : kind_of (update_blinding st b) = kind_of st.
Proof. destruct st; reflexivity. Qed.
Lemma update_tag st b v bl tag : update_blinding st b = RAmount v bl tag -> exists bl', st = RAmount v bl' tag.
Proof. destruct st; cbn; try discriminate. intros E. injection E as <- _ <-. eauto. Qed.

Section Main.
Context (D : Defs) (P : Pedersen) (wrap : bool) (s : Stock) (ch : Choices).
Context (X : BuildCtx) (method : CloseMethod) (layer : Layer1) (cid a tt : N) (lookup : option N) (T : list (N * N)).
Context (Hsz : len (fs_owned (bc_schema X)) <= 255).
Notation winv := (winv D s ch X method layer cid a tt lookup T).
Notation mv := (mv D s ch method layer cid a).

Lemma winv_sel w l me : winv w l ->
  exists O, side X cid tt (sel (keqb me method) w) T O (map snd (with_method me l)) /\ Forall2 mv (other_types a (with_method me l)) O.
Proof.
  intros W. assert (Hm : me = method \/ me = other method) by (destruct me, method; cbn; auto). destruct Hm as [->| ->].
  - rewrite keqb_refl. exact (wi_main _ _ _ _ _ _ _ _ _ _ _ _ _ W).
  - replace (keqb (other method) method) with false by (destruct method; reflexivity). exact (wi_alt _ _ _ _ _ _ _ _ _ _ _ _ _ W).
Qed.

Lemma wk_call_can main c w : (exists b, t_call X (sel main w) c = Ok b) -> exists w', wk_call X main c w = Ok w'.
Proof. intros (b & Eb). unfold wk_call. unfold sel in Eb. rewrite Eb. cbn. eauto. Qed.

Lemma out_can u ty : ch_alloc ch u cid ty (velocity_for D s cid ty) <> None -> exists seal, output_for D s ch u method layer cid ty = Ok seal.
Proof. intros Hn. unfold output_for. cbv zeta. destruct (ch_alloc ch u cid ty (velocity_for D s cid ty)); [cbn; eauto|contradiction]. Qed.

Lemma add64_can x y : x + y <= U64MAX -> add64 wrap x y = Ok (x + y).
Proof. intros Hl. unfold add64. apply N.leb_le in Hl. rewrite Hl. reflexivity. Qed.

Lemma spend_can w l x : winv w l -> in_schema X T x -> (in_ty x <> a -> placed ch use_main cid (velocity_for D s cid) x) ->
  len (with_method (os_method (in_seal x)) (l ++ [x])) <= 255 -> total a (l ++ [x]) <= U64MAX ->
  exists w', spend D wrap s ch X method layer cid a lookup w x = Ok w'.
Proof.
  intros W (Hos & Htag) Hpl Hlen Htot. destruct (winv_sel w l (os_method (in_seal x)) W) as (O & S & F).
  rewrite with_method_snoc, keqb_refl, len_app in Hlen. change (len [x]) with 1 in Hlen.
  pose proof (wi_sum _ _ _ _ _ _ _ _ _ _ _ _ _ W) as Hs. pose proof (wi_sum_alt _ _ _ _ _ _ _ _ _ _ _ _ _ W) as Hsa.
  pose proof (total_split a method l) as Hsp. rewrite total_app, total_one in Htot.
  destruct x as [seal [o st]]. unfold spend. unfold of_method. cbn [in_seal fst] in *.
  destruct (side_input_can X Hsz _ _ _ _ _ _ o st S) as (b1 & E1); [rewrite len_map; apply N.le_succ_l; rewrite <- N.add_1_r; exact Hlen|].
  unfold wk_call at 1. unfold sel in E1. rewrite E1. cbn [co_builder rmap_err rbind].
  unfold in_ty, in_out, in_state in *. cbn [fst snd] in *.
  destruct (N.eqb_spec (oo_ty o) a) as [Ety|Ety]; cbn [negb].
  - assert (Hax : amount_in a (seal, (o, st)) = match st with RAmount v _ _ => v | _ => 0 end).
    { unfold amount_in, in_ty, in_out, in_state. cbn [fst snd]. rewrite Ety, N.eqb_refl. reflexivity. }
    destruct st as [|v bl tag|v salt|f salt]; try (eexists; reflexivity). rewrite Hax in Htot. cbn [wk_sum wk_sum_alt].
    rewrite add64_can by lia. cbn [rbind]. destruct (keqb _ method); [cbn; eauto|]. rewrite add64_can by lia. cbn. eauto.
  - destruct (out_can (UMain seal o) (oo_ty o) (Hpl Ety)) as (out & Eo). rewrite Eo. cbn [rbind]. apply wk_call_can.
    assert (S1 : side X cid tt b1 T O (map snd (with_method (os_method seal) l) ++ [(o, st)])) by exact (side_input _ _ _ _ _ _ _ _ _ _ S E1).
    destruct (side_owned_can X Hsz _ _ _ _ _ _ (oo_ty o) out (update_blinding st (ch_blind ch (UMain seal o) cid a)) S1) as (b2 & E2).
    + rewrite <- (len_forall2 _ _ _ F). eapply N.le_lt_trans; [apply len_filter|]. lia.
    + rewrite update_kind. exact Hos.
    + intros v bl tag Eu. apply update_tag in Eu as (bl' & ->). eapply Htag. reflexivity.
    + exists b2. destruct (keqb (os_method seal) method); cbn; exact E2.
Qed.

Lemma len_with_app m l l' : len (with_method m (l ++ l')) = len (with_method m l) + len (with_method m l').
Proof. unfold with_method. rewrite filter_app. apply len_app. Qed.

Lemma spends_can rest : forall w l, winv w l -> (forall x, In x rest -> in_schema X T x) ->
  (forall x, In x rest -> in_ty x <> a -> placed ch use_main cid (velocity_for D s cid) x) ->
  inputs_fit (l ++ rest) -> total a (l ++ rest) <= U64MAX ->
  exists w', rfold (spend D wrap s ch X method layer cid a lookup) w rest = Ok w' /\ winv w' (l ++ rest).
Proof.
  induction rest as [|x rest IH]; intros w l W Hin Hpl Hf Ht; [exists w; rewrite app_nil_r; auto|].
  change (x :: rest) with ([x] ++ rest) in Hf, Ht. rewrite app_assoc in Hf, Ht.
  assert (Hl1 : len (with_method (os_method (in_seal x)) (l ++ [x])) <= 255).
  { pose proof (Hf (os_method (in_seal x))) as Q. rewrite len_with_app in Q. lia. }
  assert (Ht1 : total a (l ++ [x]) <= U64MAX) by (rewrite total_app in Ht; lia).
  destruct (spend_can w l x W (Hin x (or_introl eq_refl)) (Hpl x (or_introl eq_refl)) Hl1 Ht1) as (w1 & E1).
  pose proof (spend_inv _ _ _ _ _ _ _ _ _ _ _ _ _ _ _ _ W (or_intror Ht1) E1) as W1.
  destruct (IH w1 (l ++ [x]) W1 (fun y Hy => Hin y (or_intror Hy)) (fun y Hy => Hpl y (or_intror Hy)) Hf Ht) as (w' & Ew & W').
  exists w'. cbn [rfold]. rewrite E1. cbn [rbind]. split; [exact Ew|]. rewrite <- app_assoc in W'. exact W'.
Qed.

(** What was spent had an output *)
Lemma winv_placed w l x : winv w l -> In x l -> in_ty x <> a -> placed ch use_main cid (velocity_for D s cid) x.
Proof.
  intros W Hx Ht. destruct (winv_sel w l (os_method (in_seal x)) W) as (O & _ & F).
  assert (Hi : In x (other_types a (with_method (os_method (in_seal x)) l))).
  { unfold other_types. apply filter_In. split; [apply In_with_method; auto|]. apply N.eqb_neq in Ht. rewrite Ht. reflexivity. }
  clear -F Hi. induction F as [|y r l0 O M F IH]; [destruct Hi|]. destruct Hi as [<-|Hi]; [|exact (IH Hi)].
  destruct M as (_ & (v & Ev & _) & _). unfold placed. congruence.
Qed.

(** ** Paying *)
Lemma amount_type l : (forall x, In x l -> in_schema X T x) -> 0 < total a l ->
  (exists os, mget a (fs_owned (bc_schema X)) = Some os /\ kind_fits_schema KFungible os) /\ exists tag, latest T a = Some tag.
Proof.
  intros Hin Hpos. induction l as [|x l IH]; [cbn in Hpos; lia|]. change (x :: l) with ([x] ++ l) in Hpos. rewrite total_app, total_one in Hpos.
  destruct (N.eq_dec (amount_in a x) 0) as [Z|Z]; [apply IH; [intros y Hy; apply Hin; right; exact Hy|lia]|].
  unfold amount_in in Z. destruct (N.eqb_spec (in_ty x) a) as [Et|]; [|contradiction]. destruct (Hin x (or_introl eq_refl)) as ((os & Hos & Hk) & Htag).
  destruct (in_state x) as [|v b tag| |] eqn:Es; try contradiction. rewrite Et in Hos, Htag. split; [exists os; auto|]. eexists. eapply Htag. reflexivity.
Qed.
Lemma data_type l v : (forall x, In x l -> in_schema X T x) -> In v (data_in a l) ->
  exists os, mget a (fs_owned (bc_schema X)) = Some os /\ kind_fits_schema KStructured os.
Proof.
  intros Hin Hv. unfold data_in in Hv. apply in_flat_map in Hv as (x & Hx & Hv). unfold data_of in Hv. destruct (N.eqb_spec (in_ty x) a) as [Et|]; [|destruct Hv].
  destruct (Hin x Hx) as ((os & Hos & Hk) & _). destruct (in_state x); try (destruct Hv; fail). rewrite Et in Hos. exists os. auto.
Qed.

Lemma opt_call_can (c : bool) main seal v bl w O I : side X cid tt (sel main w) T O I -> len O < 65535 ->
  (c = true -> (exists os, mget a (fs_owned (bc_schema X)) = Some os /\ kind_fits_schema KFungible os) /\ exists tag, latest T a = Some tag) ->
  exists w' O', (if c then wk_call X main (TFungibleRaw a seal v bl) w else Ok w) = Ok w' /\ side X cid tt (sel main w') T O' I /\ len O' <= len O + 1 /\
    sel (negb main) w' = sel (negb main) w /\ wk_sum_alt w' = wk_sum_alt w.
Proof.
  intros S Hl Hc. destruct c; [|exists w, O; repeat split; try reflexivity; [exact S|lia]]. destruct (Hc eq_refl) as (Hos & tag & Ht).
  destruct (side_fungible_can X Hsz _ _ _ _ _ _ _ seal v bl _ S Hl Hos Ht) as (b' & Eb). destruct (side_fungible _ _ _ _ _ _ _ _ _ _ _ _ S Eb) as (tag' & _ & S').
  unfold wk_call. unfold sel in Eb. rewrite Eb. cbn. eexists _, _. split; [reflexivity|]. split; [destruct main; exact S'|]. split; [rewrite len_app; change (len [(a, seal, RAmount v bl tag')]) with 1; lia|].
  destruct main; split; reflexivity.
Qed.

Lemma pay_amount_can ben amt w l : winv w l -> (forall x, In x l -> in_schema X T x) -> inputs_fit l ->
  amt <= total a l -> ch_alloc ch UChange cid a (velocity_for D s cid a) <> None ->
  exists w', pay_amount D wrap s ch X method layer cid a ben amt w = Ok w'.
Proof.
  intros W Hin Hfit Hamt Hch. pose proof (wi_sum _ _ _ _ _ _ _ _ _ _ _ _ _ W) as Hs. pose proof (wi_sum_alt _ _ _ _ _ _ _ _ _ _ _ _ _ W) as Hsa.
  destruct (winv_sel w l method W) as (Om & Sm & Fm). destruct (winv_sel w l (other method) W) as (Oa & Sa & Fa).
  rewrite keqb_refl in Sm. replace (keqb (other method) method) with false in Sa by (destruct method; reflexivity).
  pose proof (total_split a method l) as Hsp.
  assert (Lm : len Om <= 255) by (rewrite <- (len_forall2 _ _ _ Fm); eapply N.le_trans; [apply len_filter|apply Hfit]).
  assert (La : len Oa <= 255) by (rewrite <- (len_forall2 _ _ _ Fa); eapply N.le_trans; [apply len_filter|apply Hfit]).
  unfold pay_amount. rewrite Hs, Hsa. destruct (N.ltb_spec (total a l) amt); [lia|].
  unfold sub64. rewrite (proj2 (N.leb_le (total a (with_method (other method) l)) (total a l))) by lia. cbn [rbind].
  set (sm := total a l - total a (with_method (other method) l)).
  set (pp := if sm <? amt then (sm, amt - sm) else (amt, 0)).
  assert (Hpp : fst pp <= sm /\ fst pp + snd pp = amt) by (unfold pp; destruct (N.ltb_spec sm amt); cbn; lia). destruct pp as [pm pa]. cbn [fst snd] in Hpp.
  assert (Hty : 0 < total a l -> (exists os, mget a (fs_owned (bc_schema X)) = Some os /\ kind_fits_schema KFungible os) /\ exists tag, latest T a = Some tag)
    by (apply amount_type; exact Hin).
  destruct (opt_call_can (0 <? pm) true ben pm (ch_blind ch UPayment cid a) w Om _ Sm ltac:(lia)) as (w1 & O1 & E1 & S1 & L1 & N1 & A1).
  { intros E. apply N.ltb_lt in E. apply Hty. lia. }
  rewrite E1. cbn [rbind]. cbn [negb] in N1. rewrite <- N1 in Sa.
  destruct (opt_call_can (0 <? pa) false ben pa (ch_blind ch UPayment cid a) w1 Oa _ Sa ltac:(lia)) as (w2 & O2 & E2 & S2 & L2 & N2 & A2).
  { intros E. apply N.ltb_lt in E. apply Hty. lia. }
  rewrite E2. cbn [rbind]. cbn [negb] in N2. rewrite <- N2 in S1. destruct (out_can UChange a Hch) as (change & Ec). rewrite Ec. cbn [rbind].
  destruct (opt_call_can (pm <? sm) true change (sm - pm) (ch_blind ch UChange cid a) w2 O1 _ S1 ltac:(lia)) as (w3 & O3 & E3 & S3 & L3 & N3 & A3).
  { intros E. apply N.ltb_lt in E. apply Hty. unfold sm in E. lia. }
  rewrite E3. cbn [rbind]. cbn [negb] in N3. rewrite <- N3 in S2.
  destruct (opt_call_can (pa <? wk_sum_alt w3) false change (wk_sum_alt w3 - pa) (ch_blind ch UChange cid a) w3 O2 _ S2 ltac:(lia)) as (w4 & O4 & E4 & _).
  { intros E. apply N.ltb_lt in E. apply Hty. rewrite A3, A2, A1, Hsa in E. lia. }
  eauto.
Qed.

Lemma pay_data_can ben v w l : winv w l -> (forall x, In x l -> in_schema X T x) -> inputs_fit l -> In v (data_in a l) ->
  exists w', pay_data ch X cid a ben v w = Ok w'.
Proof.
  intros W Hin Hfit Hv. unfold pay_data. rewrite (wi_data _ _ _ _ _ _ _ _ _ _ _ _ _ W).
  destruct (existsb (N.eqb v) (data_in a l)) eqn:Ex.
  2: { exfalso. assert (existsb (N.eqb v) (data_in a l) = true) by (apply existsb_exists; exists v; split; [exact Hv|apply N.eqb_refl]). congruence. }
  apply wk_call_can. assert (Hside : exists O I, side X cid tt (sel (wk_data_main w) w) T O I /\ len O <= 255).
  { destruct (wk_data_main w).
    - destruct (winv_sel w l method W) as (Om & Sm & Fm). rewrite keqb_refl in Sm. exists Om. eexists. split; [exact Sm|]. rewrite <- (len_forall2 _ _ _ Fm). eapply N.le_trans; [apply len_filter|apply Hfit].
    - destruct (winv_sel w l (other method) W) as (Oa & Sa & Fa). replace (keqb (other method) method) with false in Sa by (destruct method; reflexivity).
      exists Oa. eexists. split; [exact Sa|]. rewrite <- (len_forall2 _ _ _ Fa). eapply N.le_trans; [apply len_filter|apply Hfit]. }
  destruct Hside as (O & I & S & L). eapply side_data_can; [exact Hsz|exact S|lia|]. eapply data_type; eassumption.
Qed.
End Main.
