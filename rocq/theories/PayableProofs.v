(** * Proofs about payments which can be made *)
From Verif Require Import Base Core InvoiceModel SupplModel ContainerModel PIndexModel StateModel StashModel StockModel ConsignModel IfaceModel
  BuilderModel BuilderSpec BuilderProofs BuilderCalls BuilderComplete BuilderProps ComposeModel ComposeSpec ComposeProofs ComposeMain ComposePaid ComposeBlank
  PayableSpec.
Local Open Scope N_scope.

(** ** Counting *)
Lemma nodup_len {K} `{OrdKey K} (l : list K) : distinct l <= len l.
Proof.
  unfold distinct, len. assert (Hl : (length (nodup key_dec l) <= length l)%nat) by (apply NoDup_incl_length; [apply NoDup_nodup|intros x; apply nodup_In]). lia.
Qed.
Lemma distinct_snoc {K} `{OrdKey K} (l : list K) x : distinct (l ++ [x]) <= distinct l + 1.
Proof.
  unfold distinct, len. assert (Hl : (length (nodup key_dec (l ++ [x])) <= length (x :: nodup key_dec l))%nat).
  { apply NoDup_incl_length; [apply NoDup_nodup|]. intros y. rewrite nodup_In, in_app_iff. cbn. rewrite nodup_In. intuition auto. }
  cbn in Hl. lia.
Qed.
Lemma distinct_NoDup {K} `{OrdKey K} (l : list K) : NoDup l -> distinct l = len l.
Proof. intros Hn. symmetry. apply len_distinct; [exact Hn|reflexivity]. Qed.
Lemma len_app {A} (l l' : list A) : len (l ++ l') = len l + len l'.
Proof. unfold len. rewrite app_length. lia. Qed.
Lemma len_map {A B} (f : A -> B) l : len (map f l) = len l.
Proof. unfold len. rewrite map_length. reflexivity. Qed.
Lemma len_perm {A} (l l' : list A) : Permutation l l' -> len l = len l'.
Proof. intros Hp. unfold len. rewrite (Permutation_length Hp). reflexivity. Qed.
Lemma len_filter {A} (f : A -> bool) l : len (filter f l) <= len l.
Proof. unfold len. induction l as [|x l IH]; cbn; [lia|]. destruct (f x); cbn; lia. Qed.
Lemma len_forall2 {A B} (R : A -> B -> Prop) l l' : Forall2 R l l' -> len l = len l'.
Proof. unfold len. induction 1; cbn; lia. Qed.
Lemma len_filter_map {A B} (f : A -> option B) l : len (filter_map f l) <= len l.
Proof. unfold len. induction l as [|x l IH]; cbn; [lia|]. destruct (f x); cbn; lia. Qed.
Lemma len_incl {A} (l l' : list A) : NoDup l -> (forall x, In x l -> In x l') -> len l <= len l'.
Proof. intros Hn Hi. unfold len. pose proof (NoDup_incl_length Hn Hi). lia. Qed.
Lemma sfrom_len {K} `{OrdKey K} (l : list K) : len (sfrom l) <= len l.
Proof. apply len_incl; [apply ssorted_NoDup, sfrom_sorted|]. intros x. apply sfrom_In. Qed.

(** ** What is in a builder *)
Lemma built_allowed X cid tt b l : t_built X cid tt b l ->
  (forall r, In r (owned l) -> exists os, mget (fst (fst r)) (fs_owned (bc_schema X)) = Some os /\ kind_fits_schema (kind_of (snd r)) os) /\
  distinct (map fst (ins l)) <= 255.
Proof.
  induction 1 as [|b l c b' i Hb IH Hc Hask]; [split; [intros r []|cbn; discriminate]|]. destruct IH as [I1 I2].
  destruct (t_step X cid tt b l c b' (t_built_repr _ _ _ _ _ Hb) Hc) as (j & Hj & Ha & _). rewrite (t_asks_fun X tt l c i j Hask Hj). split.
  - intros r Hr. rewrite owned_app in Hr. apply in_app_or in Hr as [Hr|Hr]; [exact (I1 r Hr)|]. destruct j; cbn in Hr; try (destruct Hr; fail). destruct Hr as [<-|[]].
    cbn [allowed] in Ha. exact (proj1 Ha).
  - rewrite ins_app, map_app. destruct j; cbn; rewrite ?app_nil_r; try exact I2. cbn [allowed] in Ha. pose proof (distinct_snoc (map fst (ins l)) o). lia.
Qed.

Section Can.
Context (X : BuildCtx) (Hsz : len (fs_owned (bc_schema X)) <= 255).

Lemma side_schema cid tt b T O I : side X cid tt b T O I ->
  forall r, In r O -> exists os, mget (fst (fst r)) (fs_owned (bc_schema X)) = Some os /\ kind_fits_schema (kind_of (snd r)) os.
Proof. intros (l & B & _ & <- & _). apply (built_allowed _ _ _ _ _ B). Qed.
Lemma side_inputs_le cid tt b T O I : side X cid tt b T O I -> NoDup (map fst I) -> len I <= 255.
Proof. intros (l & B & _ & _ & <-) ND. pose proof (proj2 (built_allowed _ _ _ _ _ B)) as D0. rewrite (distinct_NoDup _ ND), len_map in D0. exact D0. Qed.

Lemma side_input_can cid tt b T O I o st : side X cid tt b T O I -> len I < 255 -> exists b', t_call X b (TInput o st) = Ok b'.
Proof.
  intros (l & B & _ & _ & <-) HI. apply (t_can X cid tt b l _ (ItIn o st) (t_built_repr _ _ _ _ _ B)); [constructor|]. cbn [allowed].
  pose proof (nodup_len (map fst (ins l))) as Q. rewrite len_map in Q. lia.
Qed.

Lemma own_allowed T O I l ty seal st cid tt b : t_built X cid tt b l -> tags l = T -> owned l = O -> ins l = I -> len O < 65535 ->
  (exists os, mget ty (fs_owned (bc_schema X)) = Some os /\ kind_fits_schema (kind_of st) os) ->
  (forall v bl tag, st = RAmount v bl tag -> latest T ty = Some tag) -> allowed X l (ItOwn ty seal st).
Proof.
  intros B <- <- <- HO Hos Ht. cbn [allowed]. split; [exact Hos|]. split; [exact Ht|]. split.
  - intros _. eapply N.le_lt_trans; [apply nodup_len|]. unfold BuilderSpec.seals_of, of_kind. eapply N.le_lt_trans; [apply len_filter_map|]. eapply N.le_lt_trans; [apply len_filter|]. exact HO.
  - intros Hn. set (L := types_of (kind_of st) (owned l)) in *. apply N.lt_le_trans with (len (ty :: nodup key_dec L)).
    { unfold distinct, len. cbn [length]. lia. }
    eapply N.le_trans; [|exact Hsz]. rewrite <- (len_map fst (fs_owned (bc_schema X))). apply len_incl.
    + constructor; [rewrite nodup_In; exact Hn|apply NoDup_nodup].
    + destruct (built_allowed _ _ _ _ _ B) as [Hall _]. intros y [<-|Hy].
      * destruct Hos as (os & Hos & _). apply (mget_Some_in (K := N)). eauto.
      * rewrite nodup_In in Hy. unfold L, types_of, of_kind in Hy. apply in_map_iff in Hy as (r & <- & Hr). apply filter_In in Hr as [Hr _].
        destruct (Hall r Hr) as (os & Ho & _). apply (mget_Some_in (K := N)). eauto.
Qed.

Lemma side_owned_can cid tt b T O I ty seal st : side X cid tt b T O I -> len O < 65535 ->
  (exists os, mget ty (fs_owned (bc_schema X)) = Some os /\ kind_fits_schema (kind_of st) os) ->
  (forall v bl tag, st = RAmount v bl tag -> latest T ty = Some tag) -> exists b', t_call X b (TOwnedRaw ty seal st) = Ok b'.
Proof.
  intros (l & B & HT & HO & HI) Hl Hos Ht. apply (t_can X cid tt b l _ (ItOwn ty seal st) (t_built_repr _ _ _ _ _ B)); [constructor|].
  eapply own_allowed; eassumption.
Qed.
Lemma side_fungible_can cid tt b T O I ty seal v bl tag : side X cid tt b T O I -> len O < 65535 ->
  (exists os, mget ty (fs_owned (bc_schema X)) = Some os /\ kind_fits_schema KFungible os) -> latest T ty = Some tag ->
  exists b', t_call X b (TFungibleRaw ty seal v bl) = Ok b'.
Proof.
  intros (l & B & HT & HO & HI) Hl Hos Ht. apply (t_can X cid tt b l _ (ItOwn ty seal (RAmount v bl tag)) (t_built_repr _ _ _ _ _ B)); [constructor; congruence|].
  eapply own_allowed; try eassumption. intros v0 b0 t0 E. injection E as <- <- <-. exact Ht.
Qed.
Lemma side_data_can cid tt b T O I ty seal v salt : side X cid tt b T O I -> len O < 65535 ->
  (exists os, mget ty (fs_owned (bc_schema X)) = Some os /\ kind_fits_schema KStructured os) ->
  exists b', t_call X b (TDataRaw ty seal v salt) = Ok b'.
Proof.
  intros (l & B & HT & HO & HI) Hl Hos. apply (t_can X cid tt b l _ (ItOwn ty seal (RData v salt)) (t_built_repr _ _ _ _ _ B)); [constructor|].
  eapply own_allowed; try eassumption. discriminate.
Qed.

(** ** Completing *)
Lemma kind_fits_same k k' os : kind_fits_schema k os -> kind_fits_schema k' os -> k = k'.
Proof. destruct k, k', os; cbn; tauto. Qed.

Lemma finish_can H P od cid tt b T O (lst : list Inp) T0 m l meth f : (forall i o, pd_balance P i o <> None) ->
  orders_ok od -> wfs m -> Permutation (flat m) l -> (forall s, f s = keqb (os_method s) meth) ->
  lst <> [] -> Permutation lst (with_method meth l) -> len lst <= 255 ->
  side X cid tt b T O (map snd lst) -> (forall x, In x lst -> in_schema X T0 x) ->
  exists i, finish H P od b (outputs_with od cid m f) = Ok i.
Proof.
  intros HP Ho W Hp Hf Hne Hl Hlen S Hin. pose proof (seals_of m l f meth od cid Ho W Hp Hf) as Hseals.
  assert (Hc : exists t, complete_transition P (or_rights od) b = Ok t).
  { pose proof (side_schema _ _ _ _ _ _ S) as Hsch. destruct S as (items & B & _ & HO & HI). pose proof Ho as (_ & _ & _ & Hr).
    apply (proj2 (C44_completes X P (or_rights od) cid tt b items Hr Hsz B)). intros ty Hty. split.
    - intros o st Hi. unfold inputs_of in Hi. apply filter_In in Hi as [Hi Et]. cbn [fst] in Et. apply N.eqb_eq in Et. apply kept_sub in Hi. rewrite HI in Hi.
      apply in_map_iff in Hi as ([seal q] & Eq & Hx). cbn in Eq. subst q. destruct (Hin _ Hx) as ((os & Hos & Hk) & _). cbn in Hos, Hk. unfold in_ty, in_out in Hos. cbn in Hos.
      unfold types_of, of_kind in Hty. apply in_map_iff in Hty as (r & Er & Hr'). apply filter_In in Hr' as [Hr' Ek]. rewrite HO in Hr'. destruct (Hsch r Hr') as (os' & Hos' & Hk').
      rewrite Er, <- Et, Hos in Hos'. apply Some_inj in Hos'. subst os'. assert (Ekf : kind_of (snd r) = KFungible) by (destruct (kind_of (snd r)); try discriminate Ek; reflexivity).
      rewrite Ekf in Hk'. unfold in_state in Hk. cbn in Hk. exact (kind_fits_same _ _ _ Hk Hk').
    - intros ins' first last _ _. destruct (pd_balance P (input_blinds P ins') (blindings first)) as [x|] eqn:Eb; [eauto|]. destruct (HP _ _ Eb). }
  destruct Hc as (t & Hc). unfold finish. rewrite Hc. cbn [co_builder rmap_err rbind]. unfold transition_info_new.
  assert (Hlo : len (outputs_with od cid m f) <= 255).
  { eapply N.le_trans; [|exact Hlen]. rewrite (len_perm _ _ Hl), <- (len_map in_seal (with_method meth l)). apply len_incl; [|intros x; apply Hseals].
    eapply Permutation_NoDup; [apply Permutation_sym, outputs_perm; exact Ho|]. apply NoDup_filter. apply msorted_NoDup. apply W. }
  destruct (outputs_with od cid m f) as [|s0 r] eqn:Eo.
  { destruct lst as [|x q]; [contradiction|]. destruct (proj2 (Hseals (in_seal x))). apply in_map. apply (Permutation_in _ Hl). left. reflexivity. }
  assert (Hm : forall s, In s (s0 :: r) -> os_method s = meth).
  { intros s1 H1. apply Hseals in H1. apply in_map_iff in H1 as (x & <- & H1). apply In_with_method in H1 as [_ H1]. exact H1. }
  destruct (N.ltb_spec U24MAX (len (sfrom (map os_outpoint (s0 :: r))))) as [Hlt|_].
  { exfalso. pose proof (sfrom_len (map os_outpoint (s0 :: r))) as Q. rewrite len_map in Q. unfold U24MAX in Hlt. lia. }
  destruct (existsb _ (s0 :: r)) eqn:Ex; [|eauto]. exfalso. apply existsb_exists in Ex as (s1 & H1 & E1). rewrite (Hm s0 (or_introl eq_refl)), (Hm s1 H1), keqb_refl in E1. discriminate.
Qed.
End Can.
