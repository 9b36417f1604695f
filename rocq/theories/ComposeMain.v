(** * Proofs about composing payments: the transitions of the contract *)
From Verif Require Import Base Core InvoiceModel SupplModel ContainerModel PIndexModel StateModel StashModel StockModel IfaceModel
  BuilderModel BuilderSpec BuilderProofs BuilderCalls BuilderComplete BuilderProps ComposeModel ComposeSpec ComposeProofs.
Local Open Scope N_scope.

Lemma co_builder_ok {A} (r : result BuilderError A) a : co_builder r = Ok a <-> r = Ok a.
Proof. destruct r; cbn; split; congruence. Qed.
Lemma with_method_snoc m l x : with_method m (l ++ [x]) = with_method m l ++ if keqb (os_method (in_seal x)) m then [x] else [].
Proof. unfold with_method. rewrite filter_app. cbn. destruct (keqb _ _); reflexivity. Qed.
Lemma other_types_app a l l' : other_types a (l ++ l') = other_types a l ++ other_types a l'.
Proof. apply filter_app. Qed.
Lemma total_app a l l' : total a (l ++ l') = total a l + total a l'.
Proof. unfold total. rewrite map_app. apply list_sum_app. Qed.
Lemma total_one a x : total a [x] = amount_in a x.
Proof. unfold total. cbn. lia. Qed.
Lemma total_perm a l l' : Permutation l l' -> total a l = total a l'.
Proof. intros Hp. apply list_sum_perm. apply Permutation_map. exact Hp. Qed.

(** The other closing method *)
Definition other (m : CloseMethod) : CloseMethod := match m with TapretFirst => OpretFirst | OpretFirst => TapretFirst end.
Lemma other_keqb m m' : keqb m (other m') = negb (keqb m m').
Proof. destruct m, m'; reflexivity. Qed.
Lemma total_split a m l : total a l = total a (with_method m l) + total a (with_method (other m) l).
Proof.
  unfold total, with_method. induction l as [|x l IH]; [reflexivity|]. cbn [filter]. rewrite other_keqb. destruct (keqb _ _); cbn [negb map list_sum fold_right] in *; unfold list_sum in *; cbn [fold_right] in *; lia.
Qed.

Section Main.
Context (H : Hashes) (D : Defs) (P : Pedersen) (wrap : bool) (s : Stock) (ch : Choices) (od : Orders).
Context (X : BuildCtx) (method : CloseMethod) (layer : Layer1) (cid a tt : N) (lookup : option N) (T : list (N * N)).

Definition mv (x : Inp) (r : N * BSeal * RState) : Prop :=
  fst (fst r) = in_ty x /\ payer_seal ch method layer (use_main x) cid (in_ty x) (velocity_for D s cid (in_ty x)) (snd (fst r)) /\
  snd r = update_blinding (in_state x) (ch_blind ch (use_main x) cid a).

Record winv (w : Work) (l : list Inp) : Prop := {
  wi_main : exists O, side X cid tt (wk_main w) T O (map snd (with_method method l)) /\ Forall2 mv (other_types a (with_method method l)) O;
  wi_alt : exists O, side X cid tt (wk_alt w) T O (map snd (with_method (other method) l)) /\ Forall2 mv (other_types a (with_method (other method) l)) O;
  wi_sum : wk_sum w = total a l;
  wi_sum_alt : wk_sum_alt w = total a (with_method (other method) l);
  wi_data : wk_data w = data_in a l;
  wi_data_main : wk_data_main w = false <-> exists v, lookup = Some v /\ In v (data_in a (with_method (other method) l))
}.

Lemma output_for_ok u ty seal : output_for D s ch u method layer cid ty = Ok seal <-> payer_seal ch method layer u cid ty (velocity_for D s cid ty) seal.
Proof.
  unfold output_for, payer_seal. split.
  - intros E. apply rbind_ok in E as (v & Ev & E). apply ok_or_ok in Ev. injection E as <-. eauto.
  - intros (v & -> & ->). reflexivity.
Qed.

Lemma add64_ok x y z : add64 wrap x y = Ok z -> wrap = false \/ x + y <= U64MAX -> z = x + y.
Proof. unfold add64. destruct (N.leb_spec (x + y) U64MAX); [congruence|]. destruct wrap; [|discriminate]. intros _ [E|E]; [discriminate|lia]. Qed.

Lemma data_in_app l l' : data_in a (l ++ l') = data_in a l ++ data_in a l'.
Proof. apply flat_map_app. Qed.

(** A call on one side *)
Lemma wk_call_ok main c w w' : wk_call X main c w = Ok w' ->
  exists b, t_call X (if main then wk_main w else wk_alt w) c = Ok b /\
    w' = {| wk_main := if main then b else wk_main w; wk_alt := if main then wk_alt w else b;
            wk_sum := wk_sum w; wk_sum_alt := wk_sum_alt w; wk_data := wk_data w; wk_data_main := wk_data_main w |}.
Proof. intros E. unfold wk_call in E. apply rbind_ok in E as (b & Eb & E). rewrite co_builder_ok in Eb. injection E as <-. eauto. Qed.

Lemma spend_inv w l x w' : winv w l -> no_wrap wrap a (l ++ [x]) -> spend D wrap s ch X method layer cid a lookup w x = Ok w' -> winv w' (l ++ [x]).
Proof.
  intros [(Om & Sm & Fm) (Oa & Sa & Fa) Hs Hsa Hd Hdm] Hw E. destruct x as [seal [o st]]. unfold spend in E.
  set (x := (seal, (o, st)) : Inp) in *. unfold of_method in E. apply rbind_ok in E as (w1 & E1 & E). apply wk_call_ok in E1 as (b1 & E1 & ->).
  assert (Hsum : wk_sum w + amount_in a x = total a (l ++ [x])) by (rewrite total_app, total_one; lia).
  pose proof (total_split a method (l ++ [x])) as Hsp.
  destruct (oo_ty o =? a) eqn:Ety; cbn [negb] in E.
  - (* the type of the payment *)
    assert (Hot : other_types a [x] = []) by (cbn; unfold in_ty, in_out; cbn; rewrite Ety; reflexivity).
    assert (Hmain : exists O, side X cid tt (if keqb (os_method seal) method then b1 else wk_main w) T O (map snd (with_method method (l ++ [x]))) /\
                      Forall2 mv (other_types a (with_method method (l ++ [x]))) O).
    { exists Om. rewrite with_method_snoc. change (os_method (in_seal x)) with (os_method seal). destruct (keqb (os_method seal) method) eqn:Em.
      - rewrite other_types_app, Hot, app_nil_r, map_app. split; [|exact Fm]. exact (side_input _ _ _ _ _ _ _ _ _ _ Sm E1).
      - rewrite app_nil_r. auto. }
    assert (Halt : exists O, side X cid tt (if keqb (os_method seal) method then wk_alt w else b1) T O (map snd (with_method (other method) (l ++ [x]))) /\
                      Forall2 mv (other_types a (with_method (other method) (l ++ [x]))) O).
    { exists Oa. rewrite with_method_snoc, other_keqb. change (os_method (in_seal x)) with (os_method seal). destruct (keqb (os_method seal) method) eqn:Em; cbn [negb].
      - rewrite app_nil_r. auto.
      - rewrite other_types_app, Hot, app_nil_r, map_app. split; [|exact Fa]. exact (side_input _ _ _ _ _ _ _ _ _ _ Sa E1). }
    assert (Hada : total a (with_method (other method) (l ++ [x])) = total a (with_method (other method) l) + if keqb (os_method seal) method then 0 else amount_in a x).
    { rewrite with_method_snoc, other_keqb, total_app. change (os_method (in_seal x)) with (os_method seal).
      destruct (keqb (os_method seal) method); cbn [negb]; [reflexivity|rewrite total_one; reflexivity]. }
    assert (Hdx : data_in a [x] = match st with RData v _ => [v] | _ => [] end).
    { unfold data_in. cbn [flat_map]. rewrite app_nil_r. unfold data_of, in_ty, in_out, in_state. cbn [fst snd x]. rewrite Ety. reflexivity. }
    assert (Hda : data_in a (with_method (other method) (l ++ [x])) =
              data_in a (with_method (other method) l) ++ if keqb (os_method seal) method then [] else match st with RData v _ => [v] | _ => [] end).
    { rewrite with_method_snoc, other_keqb, data_in_app. change (os_method (in_seal x)) with (os_method seal).
      destruct (keqb (os_method seal) method); cbn [negb]; [reflexivity|rewrite Hdx; reflexivity]. }
    assert (Hax : amount_in a x = match st with RAmount v _ _ => v | _ => 0 end) by (unfold amount_in, in_ty, in_out, in_state; cbn [fst snd x]; rewrite Ety; reflexivity).
    destruct st as [|v bl tag|v salt|f salt].
    + injection E as <-. constructor; cbn; try assumption; try (rewrite Hax in *); try lia.
      * rewrite Hada. destruct (keqb _ _); lia.
      * rewrite data_in_app, Hdx, app_nil_r. exact Hd.
      * rewrite Hda. destruct (keqb _ _); rewrite app_nil_r; exact Hdm.
    + apply rbind_ok in E as (sum & Esum & E). cbn [wk_sum wk_sum_alt] in *.
      assert (sum = total a (l ++ [x])) as ->.
      { rewrite <- Hsum, Hax. eapply (add64_ok _ _ _); [exact Esum|]. destruct Hw as [Hw|Hw]; [left; exact Hw|right; lia]. }
      apply rbind_ok in E as (suma & Esa & E). injection E as <-. constructor; cbn; try assumption; try reflexivity.
      * rewrite Hada. destruct (keqb (os_method seal) method); [injection Esa as <-; lia|]. rewrite Hax, <- Hsa. eapply (add64_ok _ _ _); [exact Esa|].
        destruct Hw as [Hw|Hw]; [left; exact Hw|right]. rewrite Hada, Hax in Hsp. lia.
      * rewrite data_in_app, Hdx, app_nil_r. exact Hd.
      * rewrite Hda. destruct (keqb _ _); rewrite app_nil_r; exact Hdm.
    + injection E as <-. constructor; cbn; try assumption; try (rewrite Hax in *); try lia.
      * rewrite Hada. destruct (keqb _ _); lia.
      * rewrite data_in_app, Hdx, Hd. reflexivity.
      * rewrite Hda. destruct (keqb (os_method seal) method) eqn:Em; cbn [negb].
        -- rewrite andb_false_r, app_nil_r. exact Hdm.
        -- rewrite andb_true_r. destruct (keqb_spec lookup (Some v)) as [->|Ne].
           ++ split; [|reflexivity]. intros _. exists v. split; [reflexivity|]. apply in_or_app. right. left. reflexivity.
           ++ rewrite Hdm. split; intros (v' & Ev & Hi); exists v'; (split; [exact Ev|]); [apply in_or_app; left; exact Hi|].
              apply in_app_or in Hi as [Hi|[<-|[]]]; [exact Hi|congruence].
    + injection E as <-. constructor; cbn; try assumption; try (rewrite Hax in *); try lia.
      * rewrite Hada. destruct (keqb _ _); lia.
      * rewrite data_in_app, Hdx, app_nil_r. exact Hd.
      * rewrite Hda. destruct (keqb _ _); rewrite app_nil_r; exact Hdm.
  - (* another type *)
    assert (Hot : other_types a [x] = [x]) by (cbn; unfold in_ty, in_out; cbn; rewrite Ety; reflexivity).
    assert (Hax : amount_in a x = 0) by (unfold amount_in, in_ty, in_out; cbn [fst snd x]; rewrite Ety; reflexivity).
    assert (Hdx : data_in a [x] = []) by (unfold data_in; cbn [flat_map]; rewrite app_nil_r; unfold data_of, in_ty, in_out; cbn [fst snd x]; rewrite Ety; reflexivity).
    apply rbind_ok in E as (out & Eo & E). apply output_for_ok in Eo. apply wk_call_ok in E as (b2 & E2 & ->). cbn [wk_main wk_alt] in E2.
    set (st' := update_blinding st _) in *.
    assert (Hmv : mv x (oo_ty o, out, st')) by (split; [reflexivity|]; split; [exact Eo|reflexivity]).
    constructor; cbn.
    + rewrite with_method_snoc. change (os_method (in_seal x)) with (os_method seal). destruct (keqb (os_method seal) method) eqn:Em.
      * exists (Om ++ [(oo_ty o, out, st')]). rewrite other_types_app, Hot, map_app. split.
        -- exact (side_owned _ _ _ _ _ _ _ _ _ _ _ (side_input _ _ _ _ _ _ _ _ _ _ Sm E1) E2).
        -- apply Forall2_app; [exact Fm|]. constructor; [exact Hmv|constructor].
      * exists Om. rewrite app_nil_r. auto.
    + rewrite with_method_snoc, other_keqb. change (os_method (in_seal x)) with (os_method seal). destruct (keqb (os_method seal) method) eqn:Em; cbn [negb].
      * exists Oa. rewrite app_nil_r. auto.
      * exists (Oa ++ [(oo_ty o, out, st')]). rewrite other_types_app, Hot, map_app. split.
        -- exact (side_owned _ _ _ _ _ _ _ _ _ _ _ (side_input _ _ _ _ _ _ _ _ _ _ Sa E1) E2).
        -- apply Forall2_app; [exact Fa|]. constructor; [exact Hmv|constructor].
    + lia.
    + rewrite with_method_snoc, total_app, Hsa. destruct (keqb (os_method (in_seal x)) (other method)); [rewrite total_one, Hax; lia|cbn; lia].
    + rewrite data_in_app, Hdx, app_nil_r. exact Hd.
    + rewrite with_method_snoc, data_in_app. destruct (keqb _ (other method)); [rewrite Hdx|cbn]; rewrite app_nil_r; exact Hdm.
Qed.

Lemma spends_inv rest : forall w l w', winv w l -> no_wrap wrap a (l ++ rest) ->
  rfold (spend D wrap s ch X method layer cid a lookup) w rest = Ok w' -> winv w' (l ++ rest).
Proof.
  induction rest as [|x rest IH]; intros w l w' W Hw E; [injection E as <-; rewrite app_nil_r; exact W|].
  cbn [rfold] in E. apply rbind_ok in E as (w1 & E1 & E). change (x :: rest) with ([x] ++ rest) in *. rewrite app_assoc in *.
  apply (IH w1); [|exact Hw|exact E]. apply (spend_inv w); [exact W| |exact E1]. destruct Hw as [Hw|Hw]; [left; exact Hw|right].
  rewrite total_app in Hw. lia.
Qed.
End Main.

(** ** Inputs of a builder *)
Lemma side_inputs X cid tt b T O I : side X cid tt b T O I -> has_inputs b = match I with [] => false | _ => true end.
Proof.
  intros (l & B & _ & _ & HI). pose proof (t_built_repr _ _ _ _ _ B) as R. destruct R as [_ _ _ _ [S G]]. unfold has_inputs. rewrite HI in G.
  destruct I as [|[o st] I].
  - destruct (tb_inputs b) as [|[o st] r]; [reflexivity|]. specialize (G o). cbn in G. unfold keqb in G. rewrite cmp_refl in G. discriminate.
  - destruct (tb_inputs b); [|reflexivity]. specialize (G o). destruct (latest_some (K := Opout) ((o, st) :: I) o) as (v & Hv); [left; reflexivity|]. rewrite Hv in G. discriminate.
Qed.

Lemma with_method_perm m l l' : Permutation l l' -> Permutation (with_method m l) (with_method m l').
Proof. apply filter_perm. Qed.
Lemma other_types_perm a l l' : Permutation l l' -> Permutation (other_types a l) (other_types a l').
Proof. apply filter_perm. Qed.
Lemma In_with_method m l x : In x (with_method m l) <-> In x l /\ os_method (in_seal x) = m.
Proof. unfold with_method. rewrite filter_In, keqb_eq. reflexivity. Qed.
Lemma NoDup_map_filter {A B} (f : A -> B) g l : NoDup (map f l) -> NoDup (map f (filter g l)).
Proof.
  induction l as [|x l IH]; [constructor|]. cbn. intros N. apply NoDup_cons_iff in N as [Hn N]. destruct (g x); [|exact (IH N)].
  cbn. constructor; [|exact (IH N)]. intros Hi. apply Hn. apply in_map_iff in Hi as (y & E & Hy). apply filter_In in Hy as [Hy _]. rewrite <- E. apply in_map. exact Hy.
Qed.

Lemma seals_of m l f meth od cid : orders_ok od -> wfs m -> Permutation (flat m) l -> (forall s, f s = keqb (os_method s) meth) ->
  forall seal, In seal (outputs_with od cid m f) <-> In seal (map in_seal (with_method meth l)).
Proof.
  intros Ho W Hp Hf seal.
  assert (E1 : In seal (outputs_with od cid m f) <-> In seal (filter f (mkeys m))).
  { split; apply Permutation_in; [|apply Permutation_sym]; apply outputs_perm; exact Ho. }
  rewrite E1, filter_In, Hf, keqb_eq, in_map_iff. split.
  - intros [Hk Hm]. apply in_map_iff in Hk as ([seal' lm] & E & Hk). cbn in E. subst seal'. pose proof (In_mget _ _ _ (proj1 W) Hk) as G.
    destruct (proj2 W _ _ G) as [_ Hne]. destruct lm as [|[o st] lm]; [contradiction|]. exists (seal, (o, st)). split; [reflexivity|].
    apply In_with_method. split; [|exact Hm]. apply (Permutation_in _ Hp). unfold flat. apply in_flat_map. exists (seal, (o, st) :: lm). split; [exact Hk|left; reflexivity].
  - intros (x & <- & Hx). apply In_with_method in Hx as [Hx Hm]. split; [|exact Hm]. apply (Permutation_in _ (Permutation_sym Hp)) in Hx.
    unfold flat in Hx. apply in_flat_map in Hx as ([seal lm] & Hk & Hx). cbn in Hx. apply in_map_iff in Hx as (q & <- & _). unfold in_seal. cbn.
    change (In (fst (seal, lm)) (map fst m)). apply in_map. exact Hk.
Qed.

(** A side which is completed *)
Lemma finish_side H P od X cid tt b T O m l lst meth f i : orders_ok od -> len (fs_owned (bc_schema X)) <= 255 ->
  wfs m -> Permutation (flat m) l -> NoDup (map in_out l) -> (forall s, f s = keqb (os_method s) meth) ->
  Permutation lst (with_method meth l) -> side X cid tt b T O (map snd lst) -> NoDup (map fst O) ->
  finish H P od b (outputs_with od cid m f) = Ok i ->
  ti_method i = meth /\ with_method meth l <> [] /\ op_kind (ti_transition i) = OpTransition /\ op_contract (ti_transition i) = cid /\
  op_ty (ti_transition i) = tt /\
  Permutation (op_inputs (ti_transition i)) (map in_out (with_method meth l)) /\
  (forall o, In o (ti_inputs i) <-> In o (map (fun x => os_outpoint (in_seal x)) (with_method meth l))) /\
  Permutation (shown (ti_transition i)) (as_shown O).
Proof.
  intros Ho Hs W Hp ND Hf Hl S NO E. pose proof (seals_of m l f meth od cid Ho W Hp Hf) as Hseals.
  assert (Eio : map fst (map snd lst) = map in_out lst) by (rewrite map_map; reflexivity).
  assert (NI : NoDup (map fst (map snd lst))).
  { rewrite Eio. eapply Permutation_NoDup; [apply Permutation_map, Permutation_sym; exact Hl|]. apply NoDup_map_filter. exact ND. }
  destruct (finish_ok H P od X cid tt b T O (map snd lst) _ i Ho Hs S NI E) as (t & Et & Ei & Eit & K1 & K2 & K3 & K4 & K5).
  subst t. rewrite (kept_id O NO) in K5.
  assert (Hm : ti_method i = meth /\ with_method meth l <> [] /\ forall o, In o (ti_inputs i) <-> In o (map os_outpoint (outputs_with od cid m f))).
  { destruct (outputs_with od cid m f) as [|s r] eqn:Eo; [discriminate|]. unfold transition_info_new in Ei. destruct (_ <? _); [discriminate|].
    destruct (existsb _ _); [discriminate|]. injection Ei as <-. cbn [ti_method ti_inputs]. pose proof (proj1 (Hseals s) (or_introl eq_refl)) as Hin.
    apply in_map_iff in Hin as (x & Ex & Hx). split; [|split].
    - apply In_with_method in Hx as [_ Hx]. rewrite <- Ex. exact Hx.
    - intros En. rewrite En in Hx. exact Hx.
    - intros o. apply sfrom_In. }
  destruct Hm as (M1 & M2 & M3). repeat (split; [assumption|]). split; [|split; [|exact K5]].
  - rewrite Eio in K4. eapply Permutation_trans; [exact K4|]. apply Permutation_map. exact Hl.
  - intros o. rewrite M3, !in_map_iff. split.
    + intros (seal & <- & Hi). apply Hseals in Hi. apply in_map_iff in Hi as (x & <- & Hi). eauto.
    + intros (x & <- & Hi). exists (in_seal x). split; [reflexivity|]. apply Hseals. apply in_map. exact Hi.
Qed.

(** ** Paying an amount *)
Section Pay.
Context (H : Hashes) (D : Defs) (P : Pedersen) (wrap : bool) (s : Stock) (ch : Choices) (od : Orders).
Context (X : BuildCtx) (method : CloseMethod) (layer : Layer1) (cid a tt : N) (lookup : option N) (T : list (N * N)).

Definition sel (main : bool) (w : Work) : TrBuilder := if main then wk_main w else wk_alt w.
Definition tag_of : N := match latest T a with Some t => t | None => 0 end.
Definition items (seal : BSeal) (v bl : N) : list (N * BSeal * RState) := if v =? 0 then [] else [(a, seal, RAmount v bl tag_of)].

Lemma opt_call (c : bool) main seal v bl w w' O I :
  (if c then wk_call X main (TFungibleRaw a seal v bl) w else Ok w) = Ok w' -> c = negb (v =? 0) -> side X cid tt (sel main w) T O I ->
  side X cid tt (sel main w') T (O ++ items seal v bl) I /\ sel (negb main) w' = sel (negb main) w /\ wk_sum_alt w' = wk_sum_alt w /\
  (v <> 0 -> latest T a = Some tag_of).
Proof.
  intros E -> S. unfold items. destruct (N.eqb_spec v 0) as [Ev|Ev]; cbn [negb] in E; [injection E as <-; rewrite app_nil_r; tauto|].
  apply wk_call_ok in E as (b & Eb & ->). fold (sel main w) in Eb. destruct (side_fungible _ _ _ _ _ _ _ _ _ _ _ _ S Eb) as (tag & Et & S').
  unfold tag_of. rewrite Et. destruct main; cbn; auto.
Qed.

Lemma pay_amount_ok ben amt w l w' : winv D s ch X method layer cid a tt lookup T w l ->
  pay_amount D wrap s ch X method layer cid a ben amt w = Ok w' ->
  amt <= total a l /\ (0 < total a l -> latest T a = Some tag_of) /\
  exists change bp bc, payer_seal ch method layer UChange cid a (velocity_for D s cid a) change /\
  forall m, exists O, Forall2 (mv D s ch method layer cid a) (other_types a (with_method m l)) O /\
    side X cid tt (sel (keqb m method) w') T
      (O ++ items ben (paid amt method a l m) bp ++ items change (total a (with_method m l) - paid amt method a l m) bc) (map snd (with_method m l)).
Proof.
  intros [(Om & Sm & Fm) (Oa & Sa & Fa) Hs Hsa _ _] E. unfold pay_amount in E. rewrite Hs, Hsa in E.
  pose proof (total_split a method l) as Hsp. destruct (N.ltb_spec (total a l) amt); [discriminate|]. split; [assumption|].
  unfold sub64 in E. rewrite (proj2 (N.leb_le (total a (with_method (other method) l)) (total a l))) in E by lia. cbn [rbind] in E.
  replace (total a l - total a (with_method (other method) l)) with (total a (with_method method l)) in E by lia.
  set (tm := total a (with_method method l)) in *. set (ta := total a (with_method (other method) l)) in *.
  set (pm := paid amt method a l method). set (pa := paid amt method a l (other method)).
  assert (Epm : pm = N.min amt tm) by (unfold pm, paid; rewrite keqb_refl; reflexivity).
  assert (Epa : pa = amt - N.min amt tm) by (unfold pa, paid; destruct method; reflexivity).
  assert (Ep : (if tm <? amt then (tm, amt - tm) else (amt, 0)) = (pm, pa)).
  { rewrite Epm, Epa. destruct (N.ltb_spec tm amt); f_equal; lia. }
  rewrite Ep in E. clear Ep. apply rbind_ok in E as (w1 & E1 & E). apply rbind_ok in E as (w2 & E2 & E).
  apply rbind_ok in E as (change & Ec & E). apply output_for_ok in Ec. apply rbind_ok in E as (w3 & E3 & E4).
  assert (Hz : forall v, (0 <? v) = negb (v =? 0)) by (intros v; destruct (N.ltb_spec 0 v), (N.eqb_spec v 0); try reflexivity; lia).
  assert (Hd : forall x y, (x <? y) = negb (y - x =? 0)) by (intros x y; destruct (N.ltb_spec x y), (N.eqb_spec (y - x) 0); try reflexivity; lia).
  destruct (opt_call _ true _ _ _ _ _ _ _ E1 (Hz _) Sm) as (A1 & A2 & A3 & A5).
  assert (A4 : side X cid tt (sel false w1) T Oa (map snd (with_method (other method) l))) by (cbn [negb] in A2; rewrite A2; exact Sa).
  destruct (opt_call _ false _ _ _ _ _ _ _ E2 (Hz _) A4) as (B1 & B2 & B3 & B4). cbn [negb] in B2. rewrite <- B2 in A1.
  destruct (opt_call _ true _ _ _ _ _ _ _ E3 (Hd _ _) A1) as (C1 & C2 & C3 & C4). cbn [negb] in C2. rewrite <- C2 in B1.
  rewrite C3, B3, A3, Hsa in E4. fold ta in E4.
  destruct (opt_call _ false _ _ _ _ _ _ _ E4 (Hd _ _) B1) as (D1 & D2 & _ & D4). cbn [negb] in D2. rewrite <- D2 in C1. rewrite <- app_assoc in C1, D1.
  split.
  { intros Hpos. destruct (N.eq_dec pm 0) as [Z1|Z1]; [|exact (A5 Z1)]. destruct (N.eq_dec pa 0) as [Z2|Z2]; [|exact (B4 Z2)].
    destruct (N.eq_dec (tm - pm) 0) as [Z3|Z3]; [|exact (C4 Z3)]. apply D4. lia. }
  exists change, (ch_blind ch UPayment cid a), (ch_blind ch UChange cid a). split; [exact Ec|].
  intros m. assert (Hm : m = method \/ m = other method) by (destruct m, method; cbn; auto). destruct Hm as [->| ->].
  - exists Om. rewrite keqb_refl. split; [exact Fm|]. exact C1.
  - exists Oa. replace (keqb (other method) method) with false by (destruct method; reflexivity). split; [exact Fa|]. exact D1.
Qed.
End Pay.

(** ** What is put to different seals *)
Lemma BRevealed_inj s s' : BRevealed s = BRevealed s' -> s = s'.
Proof. congruence. Qed.

Lemma mv_nodup D s ch method layer cid a l O : separate ch use_main cid (velocity_for D s cid) (other_types a l) ->
  NoDup (map in_out l) -> (exists m, forall x, In x l -> os_method (in_seal x) = m) ->
  Forall2 (mv D s ch method layer cid a) (other_types a l) O -> NoDup (map fst O) /\ Forall (fun r => fst (fst r) <> a) O.
Proof.
  intros Hsep ND (m & Hm) F. set (lo := other_types a l) in *.
  assert (ND' : NoDup (map in_out lo)) by (apply NoDup_map_filter; exact ND).
  assert (Hm' : forall x, In x lo -> os_method (in_seal x) = m /\ in_ty x <> a).
  { intros x Hx. unfold lo, other_types in Hx. apply filter_In in Hx as [Hx Ht]. split; [apply Hm; exact Hx|]. destruct (N.eqb_spec (in_ty x) a); [discriminate|assumption]. }
  clearbody lo. clear ND Hm. induction F as [|x r lo O M F IH]; [split; constructor|]. cbn [map]. apply NoDup_cons_iff in ND' as [Hn ND'].
  destruct IH as [I1 I2]; [|exact ND'|intros y Hy; apply Hm'; right; exact Hy|].
  { intros y z Hy Hz. apply Hsep; right; assumption. }
  destruct M as (M1 & (v & M2 & M3) & _). split.
  - constructor; [|exact I1]. intros Hi. apply in_map_iff in Hi as (r' & Er & Hr).
    assert (Hex : exists y, In y lo /\ mv D s ch method layer cid a y r').
    { clear -F Hr. induction F as [|y r lo O M F IH]; [destruct Hr|]. destruct Hr as [<-|Hr]; [exists y; split; [left; reflexivity|exact M]|].
      destruct (IH Hr) as (z & Hz & Mz). exists z. split; [right; exact Hz|exact Mz]. }
    destruct Hex as (y & Hy & (N1 & (v' & N2 & N3) & _)).
    assert (Ety : in_ty x = in_ty y) by (rewrite <- M1, <- N1, Er; reflexivity).
    assert (Ex : x = y).
    { assert (Eseal : snd (fst r) = snd (fst r')) by (rewrite Er; reflexivity). rewrite M3, N3 in Eseal. apply BRevealed_inj in Eseal.
      injection Eseal as Ev Eb. subst v'. apply Hsep; [left; reflexivity|right; exact Hy|exact Ety| | |exact Eb].
      - rewrite (proj1 (Hm' x (or_introl eq_refl))), (proj1 (Hm' y (or_intror Hy))). reflexivity.
      - rewrite M2, N2. reflexivity. }
    subst y. apply Hn. apply in_map. exact Hy.
  - constructor; [|exact I2]. rewrite M1. apply (proj2 (Hm' x (or_introl eq_refl))).
Qed.

Lemma paid_nodup D ch method layer cid a T vel ben b vout change O v v' bp bc : is_beneficiary D ch layer cid a b vout ben ->
  payer_seal ch method layer UChange cid a (vel a) change -> change_apart ch method cid a vel b vout ->
  NoDup (map fst O) -> Forall (fun r : N * BSeal * RState => fst (fst r) <> a) O ->
  ben <> change /\ NoDup (map fst (O ++ items a T ben v bp ++ items a T change v' bc)).
Proof.
  intros Hb (vc & Hc1 & Hc2) Hap NO FO. assert (Hne : ben <> change).
  { subst change. destruct b as [x|p]; cbn in Hb, Hap.
    - destruct Hb as (_ & ->). discriminate.
    - destruct Hb as (vo & -> & ->). intros E. apply BRevealed_inj in E. injection E as E1 E2 E3. apply Hap; [exact E1|rewrite Hc1, E2; reflexivity|symmetry; exact E3]. }
  split; [exact Hne|]. rewrite map_app. apply NoDup_app_intro; [exact NO| |].
  - unfold items. destruct (v =? 0), (v' =? 0); cbn; repeat constructor; cbn; intuition congruence.
  - intros k Hk Hi. assert (fst k = a).
    { rewrite map_app in Hi. apply in_app_or in Hi. unfold items in Hi. destruct (v =? 0), (v' =? 0); cbn in Hi; intuition subst; reflexivity. }
    apply in_map_iff in Hk as (r & <- & Hr). rewrite Forall_forall in FO. exact (FO r Hr H).
Qed.

(** ** Completing the transitions of the contract *)
Definition pick (od : Orders) (cid : N) (m : Spending) (method : CloseMethod) (w : Work) : result ComposeError (TrBuilder * list OutSeal * option (TrBuilder * list OutSeal)) :=
  match has_inputs (wk_main w), has_inputs (wk_alt w) with
  | true, true => Ok (wk_main w, outputs_with od cid m (of_method method), Some (wk_alt w, outputs_with od cid m (fun x => negb (of_method method x))))
  | true, false => Ok (wk_main w, outputs_with od cid m (of_method method), None)
  | false, true => Ok (wk_alt w, outputs_with od cid m (fun x => negb (of_method method x)), None)
  | false, false => Err InsufficientState
  end.

Lemma finish_mains H P od X cid tt T method m l lst w Of builders first second p blanks : orders_ok od -> len (fs_owned (bc_schema X)) <= 255 ->
  wfs m -> Permutation (flat m) l -> Permutation lst l -> NoDup (map in_out l) ->
  (forall me, side X cid tt (sel (keqb me method) w) T (Of me) (map snd (with_method me lst)) /\ NoDup (map fst (Of me))) ->
  pick od cid m method w = Ok builders ->
  finish H P od (fst (fst builders)) (snd (fst builders)) = Ok first ->
  match snd builders with Some (b, outputs) => rmap Some (finish H P od b outputs) | None => Ok None end = Ok second ->
  let ts := di_iter (ba_main (set_priority p {| ba_main := {| di_first := first; di_second := second |}; ba_blanks := blanks |})) in
  l <> [] /\ spends_all cid l ts /\
  forall t, In t ts -> op_ty (ti_transition t) = tt /\ Permutation (shown (ti_transition t)) (as_shown (Of (ti_method t))).
Proof.
  intros Ho Hsz W Hp Hl ND Hside Ep E1 E2 ts.
  set (good := fun (t : TransitionInfo) =>
    with_method (ti_method t) l <> [] /\ op_kind (ti_transition t) = OpTransition /\ op_contract (ti_transition t) = cid /\
    Permutation (op_inputs (ti_transition t)) (map in_out (with_method (ti_method t) l)) /\
    (forall o, In o (ti_inputs t) <-> In o (map (fun x => os_outpoint (in_seal x)) (with_method (ti_method t) l))) /\
    op_ty (ti_transition t) = tt /\ Permutation (shown (ti_transition t)) (as_shown (Of (ti_method t)))).
  assert (Hfin : forall me f i, (forall x, f x = keqb (os_method x) me) -> finish H P od (sel (keqb me method) w) (outputs_with od cid m f) = Ok i ->
            ti_method i = me /\ good i).
  { intros me f i Hf E. destruct (Hside me) as [S NO].
    destruct (finish_side H P od X cid tt _ T (Of me) m l (with_method me lst) me f i Ho Hsz W Hp ND Hf (with_method_perm me _ _ Hl) S NO E)
      as (K1 & K2 & K3 & K4 & K5 & K6 & K7 & K8). split; [exact K1|]. unfold good. rewrite K1. repeat split; try assumption; apply K7. }
  assert (Hin : forall me, has_inputs (sel (keqb me method) w) = false -> with_method me l = []).
  { intros me E. destruct (Hside me) as [S _]. rewrite (side_inputs _ _ _ _ _ _ _ S) in E. destruct (map snd (with_method me lst)) eqn:Em; [|discriminate].
    apply map_eq_nil in Em. apply Permutation_nil. pose proof (with_method_perm me _ _ Hl) as Q. rewrite Em in Q. exact Q. }
  assert (Hf1 : forall x, of_method method x = keqb (os_method x) method) by reflexivity.
  assert (Hf2 : forall x, negb (of_method method x) = keqb (os_method x) (other method)) by (intros x; rewrite other_keqb; reflexivity).
  assert (Ko : keqb (other method) method = false) by (destruct method; reflexivity).
  assert (Hts : exists ts0, ts = map (set_info_nonce p) ts0 /\ NoDup (map ti_method ts0) /\ (forall t, In t ts0 -> good t) /\
            forall x, In x l -> In (os_method (in_seal x)) (map ti_method ts0)).
  { assert (Hmeth : forall x, os_method (in_seal x) = method \/ os_method (in_seal x) = other method) by (intros x; destruct (os_method (in_seal x)), method; cbn; auto).
    assert (Hnil : forall me x, with_method me l = [] -> In x l -> os_method (in_seal x) <> me).
    { intros me x En Hx E. assert (Hi : In x (with_method me l)) by (apply In_with_method; auto). rewrite En in Hi. exact Hi. }
    pose proof (Hfin method) as F1. pose proof (Hfin (other method)) as F2. pose proof (Hin method) as I1. pose proof (Hin (other method)) as I2.
    rewrite keqb_refl in F1, I1. rewrite Ko in F2, I2. cbn [sel] in F1, F2, I1, I2. unfold pick in Ep.
    destruct (has_inputs (wk_main w)), (has_inputs (wk_alt w)); try discriminate Ep; injection Ep as <-; cbn [fst snd] in E1, E2.
    - apply rmap_ok in E2 as (second' & E2 & ->). destruct (F1 _ _ Hf1 E1) as [M1 G1]. destruct (F2 _ _ Hf2 E2) as [M2 G2].
      exists [first; second']. split; [reflexivity|]. cbn. rewrite M1, M2. split; [|split].
      + constructor; [|constructor; [intros []|constructor]]. intros [E|[]]. destruct method; discriminate.
      + intros t [<-|[<-|[]]]; assumption.
      + intros x Hx. destruct (Hmeth x) as [->| ->]; auto.
    - injection E2 as <-. destruct (F1 _ _ Hf1 E1) as [M1 G1]. exists [first]. split; [reflexivity|]. cbn. rewrite M1. split; [|split].
      + constructor; [intros []|constructor].
      + intros t [<-|[]]. assumption.
      + intros x Hx. destruct (Hmeth x) as [->|E]; [auto|]. destruct (Hnil _ _ (I2 eq_refl) Hx E).
    - injection E2 as <-. destruct (F2 _ _ Hf2 E1) as [M1 G1]. exists [first]. split; [reflexivity|]. cbn. rewrite M1. split; [|split].
      + constructor; [intros []|constructor].
      + intros t [<-|[]]. assumption.
      + intros x Hx. destruct (Hmeth x) as [E| ->]; [|auto]. destruct (Hnil _ _ (I1 eq_refl) Hx E). }
  destruct Hts as (ts0 & Ets & N0 & G0 & C0).
  assert (G : forall t, In t ts -> good t).
  { intros t Ht. rewrite Ets in Ht. apply in_map_iff in Ht as (t0 & <- & Ht). exact (G0 t0 Ht). }
  assert (Emeth : map ti_method ts = map ti_method ts0) by (rewrite Ets, map_map; reflexivity).
  split; [|split].
  - intros El. assert (Hf : In (di_first (ba_main (set_priority p {| ba_main := {| di_first := first; di_second := second |}; ba_blanks := blanks |}))) ts) by (left; reflexivity).
    destruct (G _ Hf) as [Gn _]. apply Gn. rewrite El. reflexivity.
  - split; [rewrite Emeth; exact N0|]. split.
    + intros x Hx. specialize (C0 x Hx). rewrite <- Emeth in C0. apply in_map_iff in C0 as (t & E & Ht). exists t. auto.
    + intros t Ht. destruct (G t Ht) as (K1 & K2 & K3 & K4 & K5 & _). auto.
  - intros t Ht. destruct (G t Ht) as (_ & _ & _ & _ & _ & K6 & K7). auto.
Qed.

(** ** The builders *)
Lemma co_stash_ok {A} (r : result StashError A) a : co_stash r = Ok a <-> r = Ok a.
Proof. destruct r; cbn; split; congruence. Qed.
Lemma co_state_ok {A} (r : result StateError A) a : co_state r = Ok a <-> r = Ok a.
Proof. destruct r; cbn; split; congruence. Qed.

Lemma transition_builder_ok D st cid iface name X b : transition_builder D st cid iface name = Ok (X, b) ->
  exists g si i im tt, stash_genesis st cid = Ok g /\ stash_schema st (op_ty g) = Ok si /\ iface_by_name st iface = Ok i /\ impl_get si (if_id i) = Some im /\
    bc_schema X = df_schema D (si_schema si) /\ bc_iface X = df_iface D i /\ bc_impl X = df_impl D im /\
    match name with
    | Some op => type_of (fm_transitions (bc_impl X)) op = Some tt
    | None => exists op, ff_default (bc_iface X) = Some op /\ type_of (fm_transitions (bc_impl X)) op = Some tt
    end /\ tb_type b = tt /\ side X cid tt b (df_tags D g) [] [].
Proof.
  intros E. unfold transition_builder in E. apply rbind_ok in E as (si & E1 & E). rewrite co_stash_ok in E1. unfold contract_schema in E1.
  apply rbind_ok in E1 as (g & Eg & E1). apply rbind_ok in E as (i & E2 & E). rewrite co_stash_ok in E2. apply rbind_ok in E as (im & E3 & E).
  apply ok_or_ok in E3. apply rbind_ok in E as (g' & Eg' & E). rewrite co_stash_ok, Eg in Eg'. apply Ok_inj in Eg'. subst g'.
  apply rbind_ok in E as (ex & Eex & E). cbv zeta in E. apply rbind_ok in E as (b0 & E4 & E). apply rbind_ok in E as (b1 & E5 & E). apply Ok_inj in E.
  injection E as <- <-. set (X := build_ctx D (si_schema si) i im (fst ex)) in *.
  assert (Ht : exists tt, b0 = tb_new cid tt /\ match name with
    | Some op => type_of (fm_transitions (bc_impl X)) op = Some tt
    | None => exists op, ff_default (bc_iface X) = Some op /\ type_of (fm_transitions (bc_impl X)) op = Some tt end).
  { destruct name as [op|].
    - unfold named_transition in E4. destruct (type_of (fm_transitions (bc_impl X)) op) as [tt|] eqn:Et; cbn in E4; [|discriminate]. injection E4 as <-. eauto.
    - unfold default_transition in E4. destruct (ff_default (bc_iface X)) as [op|] eqn:Ef; [|discriminate].
      destruct (type_of (fm_transitions (bc_impl X)) op) as [tt|] eqn:Et; cbn in E4; [|discriminate]. injection E4 as <-. exists tt. split; [reflexivity|]. eauto. }
  destruct Ht as (tt & -> & Ht). pose proof (add_tags_side X cid tt _ _ _ _ (side_new X cid tt) E5) as S.
  exists g, si, i, im, tt. repeat (split; [first [assumption|reflexivity]|]). split; [|exact S].
  destruct S as (l & B & _). apply t_built_repr in B. apply B.
Qed.

Lemma payment_type_ok D X b assignment a tt inv : tb_type b = tt -> assignment = InvoiceModel.assignment inv ->
  payment_type D X b assignment = Ok a -> asked_type D X tt inv a.
Proof.
  intros Ht -> E. unfold payment_type in E. apply rbind_ok in E as (name & En & E). apply ok_or_ok in E. exists name. split; [exact E|].
  destruct (InvoiceModel.assignment inv) as [n|]; [congruence|]. destruct (default_assignment X b) eqn:Ed; try discriminate. apply Ok_inj in En. subst.
  apply default_ok in Ed. exact Ed.
Qed.

Lemma asks_fun D s inv cid tt a cid' tt' a' : asks D s inv cid tt a -> asks D s inv cid' tt' a' -> cid = cid' /\ tt = tt' /\ a = a'.
Proof.
  intros (n & g & si & i & im & X & A1 & A2 & A3 & A4 & A5 & A6 & A7 & A8 & A9 & A10 & (nm & A11 & A12))
         (n' & g' & si' & i' & im' & X' & B1 & B2 & B3 & B4 & B5 & B6 & B7 & B8 & B9 & B10 & (nm' & B11 & B12)).
  assert (cid = cid') by congruence. subst cid'. assert (n = n') by congruence. subst n'. assert (g = g') by congruence. subst g'.
  assert (si = si') by congruence. subst si'. assert (i = i') by congruence. subst i'. assert (im = im') by congruence. subst im'. split; [reflexivity|].
  assert (Ett : tt = tt').
  { destruct (InvoiceModel.operation inv) as [op|]; [congruence|]. destruct A10 as (op & C1 & C2), B10 as (op' & C3 & C4). congruence. }
  split; [exact Ett|]. subst tt'. assert (nm = nm').
  { destruct (InvoiceModel.assignment inv); [congruence|]. destruct A12 as (op & oi & C1 & C2 & C3), B12 as (op' & oi' & C4 & C5 & C6). congruence. }
  subst nm'. unfold assignment_named in *. congruence.
Qed.

(** ** Composing, taken apart *)
Section Composed.
Context (H : Hashes) (D : Defs) (P : Pedersen) (wrap : bool) (s : Stock) (ch : Choices) (od : Orders).

Lemma compose_ok inv prev method vout priority now batch : compose H D P wrap s ch od inv prev method vout priority now = Ok batch ->
  let layer := layer1 (chain_network (beneficiary inv)) in
  exists iface cid tt a X b T ben m w w' spent_m blanks builders first second,
    asks D s inv cid tt a /\
    InvoiceModel.iface inv = Some iface /\ (exists r, bc_schema X = df_schema D r) /\
    (exists g, stash_genesis (sk_stash s) cid = Ok g /\ T = df_tags D g) /\ side X cid tt b T [] [] /\
    is_beneficiary D ch layer cid a (xcn_into_inner (beneficiary inv)) vout ben /\
    contract_assignments_for (sk_state s) cid (map os_outpoint prev) = Ok m /\
    rfold (spend D wrap s ch X method layer cid a match owned_state inv with ISData al => Some (df_alloc D al) | _ => None end)
      {| wk_main := b; wk_alt := b; wk_sum := 0; wk_sum_alt := 0; wk_data := []; wk_data_main := true |} (listed od cid m) = Ok w /\
    pay D wrap s ch X method layer cid a ben (owned_state inv) w = Ok w' /\
    spent_state s cid (map os_outpoint prev) = Ok spent_m /\
    blanks_for H D P s ch od method layer (df_name D iface) (or_contracts od spent_m) = Ok blanks /\
    pick od cid m method w' = Ok builders /\
    finish H P od (fst (fst builders)) (snd (fst builders)) = Ok first /\
    match snd builders with Some (b, outputs) => rmap Some (finish H P od b outputs) | None => Ok None end = Ok second /\
    batch = set_priority priority {| ba_main := {| di_first := first; di_second := second |}; ba_blanks := blanks |} /\
    (match expiry inv with Some t => (now <= t)%Z | None => True end).
Proof.
  intros E layer. unfold compose in E. cbv zeta in E. fold layer in E.
  destruct (match expiry inv with Some t => (t <? now)%Z | None => false end) eqn:Ex; [discriminate|].
  apply rbind_ok in E as (cid & Ec & E). apply ok_or_ok in Ec. apply rbind_ok in E as (iface & Ei & E). apply rmap_ok in Ei as (iface0 & Ei & ->).
  apply ok_or_ok in Ei. apply rbind_ok in E as ([X b] & Eb & E). cbn [fst snd] in E. apply rbind_ok in E as (a & Ea & E).
  rewrite Eb in E. cbn [rbind fst snd] in E. apply rbind_ok in E as (ben & Eben & E). apply rbind_ok in E as (m & Em & E). apply rbind_ok in E as (w & Ew & E).
  apply rbind_ok in E as (w' & Ew' & E). apply rbind_ok in E as (spm & Esp & E). apply rbind_ok in E as (blanks & Ebl & E).
  apply rbind_ok in E as (builders & Ebu & E). apply rbind_ok in E as (first & Ef & E). apply rbind_ok in E as (second & Es & E). apply Ok_inj in E.
  destruct (transition_builder_ok _ _ _ _ _ _ _ Eb) as (g & si & i & im & tt & B1 & B2 & B3 & B4 & B5 & B6 & B7 & B8 & B9 & B10).
  exists iface0, cid, tt, a, X, b, (df_tags D g), ben, m, w, w', spm, blanks, builders, first, second.
  split.
  { exists iface0, g, si, i, im, X. repeat (split; [assumption|]). split.
    - destruct (InvoiceModel.operation inv); exact B8.
    - eapply payment_type_ok; [exact B9|reflexivity|exact Ea]. }
  split; [exact Ei|]. split; [exists (si_schema si); exact B5|]. split; [exists g; auto|]. split; [exact B10|]. split.
  { unfold beneficiary_seal in Eben. unfold is_beneficiary. destruct (xcn_into_inner (beneficiary inv)) as [x|p], vout as [v|]; try discriminate; injection Eben as <-; eauto. }
  repeat (split; [assumption|]). split; [symmetry; exact E|]. destruct (expiry inv); [|exact I]. destruct (Z.ltb_spec z now); [discriminate|assumption].
Qed.
End Composed.
