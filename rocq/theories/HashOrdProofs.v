(** * Proofs about the order of hash maps: C78 *)
From Verif Require Import Base Core InvoiceModel SupplModel ContainerModel PIndexModel StateModel StashModel StockModel IfaceModel
  BuilderModel BuilderSpec BuilderProofs BuilderCalls BuilderComplete BuilderProps ComposeModel ComposeSpec ComposeProofs ComposeMain ComposePaid ComposeBlank
  IdentSpec IdentProofs DetSpec DetProofs HashOrdSpec HashOrdItems.
Local Open Scope N_scope.

Lemma t_run_app X cs : forall b cs', t_run X b (cs ++ cs') = rbind (t_run X b cs) (fun b' => t_run X b' cs').
Proof. induction cs as [|c cs IH]; intros b cs'; [reflexivity|]. cbn. destruct (t_call X b c); cbn; [apply IH|reflexivity|reflexivity]. Qed.
Lemma rfold_app {E S A} (f : S -> A -> result E S) l : forall s l', rfold f s (l ++ l') = rbind (rfold f s l) (fun s' => rfold f s' l').
Proof. induction l as [|c cs IH]; intros b cs'; [reflexivity|]. cbn. destruct (f b c); cbn; [apply IH|reflexivity|reflexivity]. Qed.
Lemma forallb_perm {A} (f : A -> bool) l l' : Permutation l l' -> forallb f l = true -> forallb f l' = true.
Proof. intros Hp. rewrite !forallb_forall. intros Hf x Hx. apply Hf. apply (Permutation_in _ (Permutation_sym Hp)). exact Hx. Qed.
Lemma flat_map_perm {A B} (f : A -> list B) l l' : Permutation l l' -> Permutation (flat_map f l) (flat_map f l').
Proof. intros Hp. apply flat_map_perm2; [exact Hp|reflexivity]. Qed.
Lemma NoDup_in_out l l' : Permutation l l' -> NoDup (map in_out l) -> NoDup (map in_out l').
Proof. intros Hp. apply Permutation_NoDup, Permutation_map. exact Hp. Qed.

(** ** Sums *)
Definition norm (wrap : bool) (z : N) : option N := if wrap then Some (z mod (U64MAX + 1)) else if z <=? U64MAX then Some z else None.
Lemma sums_ok wrap vs : forall z, z <= U64MAX -> forall r, rfold (add64 wrap) z vs = Ok r <-> norm wrap (z + list_sum vs) = Some r.
Proof.
  induction vs as [|v vs IH]; intros z Hz r.
  - cbn [rfold]. change (list_sum []) with 0. rewrite N.add_0_r. unfold norm. rewrite N.mod_small by lia. rewrite (proj2 (N.leb_le _ _)) by exact Hz.
    destruct wrap; split; congruence.
  - cbn [rfold]. change (list_sum (v :: vs)) with (v + list_sum vs). unfold add64 at 1. destruct (N.leb_spec (z + v) U64MAX) as [Hv|Hv].
    + cbn [rbind]. rewrite IH by exact Hv. rewrite N.add_assoc. reflexivity.
    + unfold norm. destruct wrap.
      * cbn [rbind]. rewrite IH by (pose proof (N.mod_lt (z + v) (U64MAX + 1)); unfold U64MAX in *; lia). unfold norm. rewrite N.add_assoc.
        rewrite N.add_mod_idemp_l by (unfold U64MAX; lia). reflexivity.
      * cbn [rbind]. rewrite (proj2 (N.leb_gt _ _)) by lia. split; congruence.
Qed.
Lemma sums_perm wrap vs vs' z r : Permutation vs vs' -> z <= U64MAX -> rfold (add64 wrap) z vs = Ok r -> rfold (add64 wrap) z vs' = Ok r.
Proof. intros Hp Hz. rewrite !sums_ok by exact Hz. rewrite (list_sum_perm _ _ Hp). auto. Qed.

(** ** Spending, taken apart *)
Section Spend.
Context (D : Defs) (wrap : bool) (s : Stock) (ch : Choices).
Context (X : BuildCtx) (method : CloseMethod) (layer : Layer1) (cid a : N) (lookup : option N).

Definition known (u : Use) (ty : N) : bool := match output_for D s ch u method layer cid ty with Ok _ => true | _ => false end.
Definition goes (u : Use) (ty : N) (st : RState) : list Item :=
  match output_for D s ch u method layer cid ty with Ok out => [ItOwn ty out st] | _ => [] end.
Definition out_known (x : Inp) : bool := (in_ty x =? a) || known (use_main x) (in_ty x).
Definition put_of (x : Inp) : list Item :=
  ItIn (in_out x) (in_state x) ::
  if in_ty x =? a then [] else goes (use_main x) (in_ty x) (update_blinding (in_state x) (ch_blind ch (use_main x) cid a)).
Definition amounts_of (x : Inp) : list N := if in_ty x =? a then match in_state x with RAmount v _ _ => [v] | _ => [] end else [].
Definition is_main (x : Inp) : bool := keqb (os_method (in_seal x)) method.
Definition hit (x : Inp) : bool := negb (is_main x) && existsb (fun v => keqb lookup (Some v)) (data_of a x).

Definition spent_by (w : Work) (l : list Inp) (w' : Work) : Prop :=
  forallb out_known l = true /\
  t_run X (wk_main w) (map call_of (flat_map put_of (with_method method l))) = Ok (wk_main w') /\
  t_run X (wk_alt w) (map call_of (flat_map put_of (with_method (other method) l))) = Ok (wk_alt w') /\
  rfold (add64 wrap) (wk_sum w) (flat_map amounts_of l) = Ok (wk_sum w') /\
  rfold (add64 wrap) (wk_sum_alt w) (flat_map amounts_of (with_method (other method) l)) = Ok (wk_sum_alt w') /\
  wk_data w' = wk_data w ++ data_in a l /\
  wk_data_main w' = wk_data_main w && negb (existsb hit l).

Lemma wk_call_iff main c w w' : wk_call X main c w = Ok w' <->
  exists b, t_call X (if main then wk_main w else wk_alt w) c = Ok b /\
    w' = {| wk_main := if main then b else wk_main w; wk_alt := if main then wk_alt w else b;
            wk_sum := wk_sum w; wk_sum_alt := wk_sum_alt w; wk_data := wk_data w; wk_data_main := wk_data_main w |}.
Proof. split; [apply wk_call_ok|]. intros (b & Eb & ->). unfold wk_call. rewrite Eb. reflexivity. Qed.

Lemma spend_iff w x w' : spend D wrap s ch X method layer cid a lookup w x = Ok w' <-> spent_by w [x] w'.
Proof.
  destruct x as [seal [o st]]. unfold spend, of_method. cbv beta iota zeta. unfold spent_by. cbn [forallb]. rewrite andb_true_r. unfold with_method. cbn [filter]. rewrite !other_keqb.
  set (x := (seal, (o, st)) : Inp). change (in_seal x) with seal. cbn [existsb]. rewrite orb_false_r.
  unfold hit, is_main. change (in_seal x) with seal. unfold data_in. cbn [flat_map]. rewrite !app_nil_r.
  assert (Ety : in_ty x = oo_ty o) by reflexivity. assert (Eput : put_of x = ItIn o st :: if oo_ty o =? a then [] else goes (UMain seal o) (oo_ty o) (update_blinding st (ch_blind ch (UMain seal o) cid a))) by reflexivity.
  unfold out_known, known, amounts_of, data_of. rewrite Ety. change (in_state x) with st. change (use_main x) with (UMain seal o).
  set (main := keqb (os_method seal) method).
  destruct (oo_ty o =? a) eqn:Et; cbn [negb orb].
  - (* the type which is paid *)
    assert (Hsplit : forall b b', t_run X b (map call_of (flat_map put_of [x])) = Ok b' <-> t_call X b (TInput o st) = Ok b').
    { intros b b'. cbn [flat_map]. rewrite app_nil_r, Eput. cbn [map call_of t_run]. destruct (t_call X b (TInput o st)); cbn; split; congruence. }
    split.
    + intros E. apply rbind_ok in E as (w1 & E1 & E). apply wk_call_iff in E1 as (b & Eb & ->). cbn in E.
      split; [reflexivity|].
      assert (Hm : t_run X (wk_main w) (map call_of (flat_map put_of (if main then [x] else []))) = Ok (if main then b else wk_main w))
        by (destruct main; [apply Hsplit; exact Eb|reflexivity]).
      assert (Ha : t_run X (wk_alt w) (map call_of (flat_map put_of (if negb main then [x] else []))) = Ok (if main then wk_alt w else b))
        by (destruct main; [reflexivity|apply Hsplit; exact Eb]).
      destruct st as [|v bl tag|v salt|f salt].
      * injection E as <-. cbn. split; [exact Hm|]. split; [exact Ha|]. split; [reflexivity|].
        split; [destruct main; cbn; rewrite ?Ety, ?Et; reflexivity|]. rewrite app_nil_r, andb_false_r, andb_true_r. auto.
      * apply rbind_ok in E as (sm & Es & E). apply rbind_ok in E as (sa & Esa & E). injection E as <-. cbn. split; [exact Hm|]. split; [exact Ha|].
        rewrite Es. split; [reflexivity|]. split.
        { destruct main; cbn; [exact Esa|]. unfold amounts_of. rewrite Ety, Et. cbn. rewrite Esa. reflexivity. }
        rewrite app_nil_r, andb_false_r, andb_true_r. auto.
      * injection E as <-. cbn. split; [exact Hm|]. split; [exact Ha|]. split; [reflexivity|].
        split; [destruct main; cbn; unfold amounts_of; rewrite ?Ety, ?Et; reflexivity|]. split; [reflexivity|].
        rewrite orb_false_r. destruct (keqb lookup (Some v)), main, (wk_data_main w); reflexivity.
      * injection E as <-. cbn. split; [exact Hm|]. split; [exact Ha|]. split; [reflexivity|].
        split; [destruct main; cbn; rewrite ?Ety, ?Et; reflexivity|]. rewrite app_nil_r, andb_false_r, andb_true_r. auto.
    + intros (_ & Hm & Ha & Hs & Hsa & Hd & Hdm).
      assert (Hc : exists b, t_call X (if main then wk_main w else wk_alt w) (TInput o st) = Ok b /\
                wk_main w' = (if main then b else wk_main w) /\ wk_alt w' = (if main then wk_alt w else b)).
      { destruct main; cbn [negb] in *.
        - apply Hsplit in Hm. exists (wk_main w'). cbn in Ha. injection Ha as Ha. auto.
        - apply Hsplit in Ha. exists (wk_alt w'). cbn in Hm. injection Hm as Hm. auto. }
      destruct Hc as (b & Eb & E1 & E2). unfold wk_call. rewrite Eb. cbn [co_builder rmap_err rbind wk_main wk_alt wk_sum wk_sum_alt wk_data wk_data_main].
      destruct w' as [wm wa ws wsa wd wdm]. cbn in *. subst wm wa wd wdm.
      destruct st as [|v bl tag|v salt|f salt]; cbn in Hs.
      * injection Hs as <-. assert (wsa = wk_sum_alt w) as -> by (destruct main; cbn in Hsa; unfold amounts_of in Hsa; rewrite ?Ety, ?Et in Hsa; cbn in Hsa; congruence).
        rewrite app_nil_r, andb_false_r, andb_true_r. reflexivity.
      * apply rbind_ok in Hs as (sm & Hs & E). injection E as <-. rewrite Hs. cbn [rbind].
        assert (Esa : (if main then Ok (wk_sum_alt w) else add64 wrap (wk_sum_alt w) v) = Ok wsa).
        { destruct main; cbn in Hsa; [exact Hsa|]. unfold amounts_of in Hsa. rewrite Ety, Et in Hsa. cbn in Hsa.
          apply rbind_ok in Hsa as (sm' & Hsa & E). injection E as <-. exact Hsa. }
        rewrite Esa. cbn. rewrite app_nil_r, andb_false_r, andb_true_r. reflexivity.
      * injection Hs as <-. assert (wsa = wk_sum_alt w) as -> by (destruct main; cbn in Hsa; unfold amounts_of in Hsa; rewrite ?Ety, ?Et in Hsa; cbn in Hsa; congruence).
        cbn. rewrite orb_false_r. destruct (keqb lookup (Some v)), main, (wk_data_main w); reflexivity.
      * injection Hs as <-. assert (wsa = wk_sum_alt w) as -> by (destruct main; cbn in Hsa; unfold amounts_of in Hsa; rewrite ?Ety, ?Et in Hsa; cbn in Hsa; congruence).
        rewrite app_nil_r, andb_false_r, andb_true_r. reflexivity.
  - (* another type *)
    assert (Hal : flat_map amounts_of (if negb main then [x] else []) = []) by (destruct main; cbn; unfold amounts_of; rewrite ?Ety, ?Et; reflexivity).
    fold amounts_of. rewrite Hal. cbn [existsb rfold]. rewrite andb_false_r, andb_true_r, app_nil_r.
    unfold goes in Eput. destruct (output_for D s ch (UMain seal o) method layer cid (oo_ty o)) as [out|e|] eqn:Eo.
    2-3: split; [intros E; apply rbind_ok in E as (w1 & _ & E); cbn in E; discriminate|intros (E & _); discriminate].
    set (st' := update_blinding st _) in *.
    assert (Hsplit : forall b b', t_run X b (map call_of (flat_map put_of [x])) = Ok b' <->
              exists b1, t_call X b (TInput o st) = Ok b1 /\ t_call X b1 (TOwnedRaw (oo_ty o) out st') = Ok b').
    { intros b b'. cbn [flat_map]. rewrite app_nil_r, Eput. cbn [map call_of t_run]. split.
      - intros E. apply rbind_ok in E as (b1 & E1 & E). apply rbind_ok in E as (b2 & E2 & E). injection E as <-. eauto.
      - intros (b1 & E1 & E2). rewrite E1. cbn [rbind]. rewrite E2. reflexivity. }
    split.
    + intros E. apply rbind_ok in E as (w1 & E1 & E). apply wk_call_iff in E1 as (b & Eb & ->). cbn [rbind] in E. apply wk_call_iff in E as (b2 & Eb2 & ->).
      cbn [wk_main wk_alt wk_sum wk_sum_alt wk_data wk_data_main] in *. split; [reflexivity|]. split; [|split; [|auto]].
      * destruct main; [apply Hsplit; eauto|reflexivity].
      * destruct main; [reflexivity|apply Hsplit; eauto].
    + intros (_ & Hm & Ha & Hs & Hsa & Hd & Hdm). destruct w' as [wm wa ws wsa wd wdm]. cbn [wk_main wk_alt wk_sum wk_sum_alt wk_data wk_data_main] in *.
      injection Hs as <-. injection Hsa as <-. subst wd wdm. unfold wk_call. destruct main; cbn [negb] in *.
      * apply Hsplit in Hm as (b1 & E1 & E2). rewrite E1. cbn [co_builder rmap_err rbind wk_main wk_alt]. rewrite E2. cbn in Ha. injection Ha as <-. reflexivity.
      * apply Hsplit in Ha as (b1 & E1 & E2). rewrite E1. cbn [co_builder rmap_err rbind wk_main wk_alt]. rewrite E2. cbn in Hm. injection Hm as <-. reflexivity.
Qed.

Lemma with_method_app m l l' : with_method m (l ++ l') = with_method m l ++ with_method m l'.
Proof. apply filter_app. Qed.

Lemma spent_by_app w l l' w' : spent_by w (l ++ l') w' <-> exists w1, spent_by w l w1 /\ spent_by w1 l' w'.
Proof.
  unfold spent_by. rewrite forallb_app, !with_method_app, !flat_map_app, !map_app, !t_run_app, !rfold_app, data_in_app, existsb_app, negb_orb. split.
  - intros (K & Hm & Ha & Hs & Hsa & Hd & Hdm). apply andb_true_iff in K as [K1 K2].
    apply rbind_ok in Hm as (bm & Hm1 & Hm2). apply rbind_ok in Ha as (ba & Ha1 & Ha2). apply rbind_ok in Hs as (sm & Hs1 & Hs2). apply rbind_ok in Hsa as (sa & Hsa1 & Hsa2).
    exists {| wk_main := bm; wk_alt := ba; wk_sum := sm; wk_sum_alt := sa; wk_data := wk_data w ++ data_in a l; wk_data_main := wk_data_main w && negb (existsb hit l) |}.
    cbn. repeat (split; [first [assumption|reflexivity]|]). rewrite <- app_assoc, <- andb_assoc. auto 10.
  - intros (w1 & (K1 & Hm1 & Ha1 & Hs1 & Hsa1 & Hd1 & Hdm1) & (K2 & Hm2 & Ha2 & Hs2 & Hsa2 & Hd2 & Hdm2)).
    rewrite K1, K2, Hm1, Ha1, Hs1, Hsa1. cbn [rbind]. repeat (split; [first [assumption|reflexivity]|]).
    rewrite Hd2, Hdm2, Hd1, Hdm1, <- app_assoc, <- andb_assoc. auto.
Qed.

Lemma spends_iff l : forall w w', rfold (spend D wrap s ch X method layer cid a lookup) w l = Ok w' <-> spent_by w l w'.
Proof.
  induction l as [|x l IH]; intros w w'.
  - unfold spent_by. cbn. rewrite app_nil_r, andb_true_r. destruct w, w'. cbn. split; [intros E; injection E as -> -> -> -> -> ->; auto 10|].
    intros (_ & E1 & E2 & E3 & E4 & E5 & E6). congruence.
  - cbn [rfold]. change (x :: l) with ([x] ++ l). rewrite spent_by_app. split.
    + intros E. apply rbind_ok in E as (w1 & E1 & E). exists w1. split; [apply spend_iff; exact E1|apply IH; exact E].
    + intros (w1 & E1 & E). apply spend_iff in E1. rewrite E1. apply IH. exact E.
Qed.

(** ** What is put *)
Lemma put_movable l : Forall movable (flat_map put_of l).
Proof.
  apply Forall_forall. intros i Hi. apply in_flat_map in Hi as (x & _ & Hi). unfold put_of, goes in Hi. destruct Hi as [<-|Hi]; [exact Logic.I|].
  destruct (in_ty x =? a); [destruct Hi|]. destruct (output_for _ _ _ _ _ _ _ _); [|destruct Hi..]. destruct Hi as [<-|[]]. exact Logic.I.
Qed.
Lemma put_ins l : map fst (ins (flat_map put_of l)) = map in_out l.
Proof.
  induction l as [|x l IH]; [reflexivity|]. cbn [flat_map map]. rewrite ins_app', map_app, IH. unfold put_of, goes. destruct (in_ty x =? a); [reflexivity|].
  destruct (output_for _ _ _ _ _ _ _ _); reflexivity.
Qed.
Lemma put_owned l : forallb out_known l = true -> Forall2 (mv D s ch method layer cid a) (other_types a l) (owned (flat_map put_of l)).
Proof.
  induction l as [|x l IH]; [constructor|]. cbn [forallb]. intros K. apply andb_true_iff in K as [K1 K]. cbn [flat_map other_types filter]. rewrite owned_app'.
  unfold put_of, goes, out_known, known in *. destruct (in_ty x =? a) eqn:Et; cbn [negb orb] in *; [exact (IH K)|].
  destruct (output_for D s ch (use_main x) method layer cid (in_ty x)) as [out| |] eqn:Eo; try discriminate. cbn. constructor; [|exact (IH K)].
  split; [reflexivity|]. split; [|reflexivity]. apply output_for_ok in Eo. exact Eo.
Qed.
Lemma put_once base l : ins base = [] -> owned base = [] -> NoDup (map in_out l) -> forallb out_known l = true ->
  separate ch use_main cid (velocity_for D s cid) (other_types a l) -> (exists m, forall x, In x l -> os_method (in_seal x) = m) ->
  once (base ++ flat_map put_of l).
Proof.
  intros Bi Bo ND K Hsep Hm. unfold once. rewrite ins_app', owned_app', Bi, Bo. cbn [app]. split; [rewrite put_ins; exact ND|].
  eapply mv_nodup; [exact Hsep|exact ND|exact Hm|apply put_owned; exact K].
Qed.
Lemma put_void l ty seal : forallb out_known l = true -> In (ty, seal, RVoid) (owned (flat_map put_of l)) ->
  exists x, In x (other_types a l) /\ in_state x = RVoid /\ in_ty x = ty /\ output_for D s ch (use_main x) method layer cid ty = Ok seal.
Proof.
  intros K Hi. pose proof (put_owned l K) as F. clear K. induction F as [|x r l1 l2 (M1 & M2 & M3) F IH]; [destruct Hi|].
  destruct Hi as [E|Hi]; [|destruct (IH Hi) as (y & Hy & R); exists y; split; [right; exact Hy|exact R]].
  exists x. subst r. cbn in *. split; [left; reflexivity|]. split; [destruct (in_state x); cbn in M3; congruence|]. split; [auto|].
  apply output_for_ok. rewrite M1. exact M2.
Qed.

(** Spending in another order gives the same. *)
Definition eqv (w w' : Work) : Prop :=
  wk_main w = wk_main w' /\ wk_alt w = wk_alt w' /\ wk_sum w = wk_sum w' /\ wk_sum_alt w = wk_sum_alt w' /\
  Permutation (wk_data w) (wk_data w') /\ wk_data_main w = wk_data_main w'.

Lemma existsb_perm {A} (f : A -> bool) l l' : Permutation l l' -> existsb f l = existsb f l'.
Proof. intros Hp. apply Bool.eq_true_iff_eq. rewrite !existsb_exists. split; intros (x & Hx & E); exists x; (split; [|exact E]); [apply (Permutation_in _ Hp)|apply (Permutation_in _ (Permutation_sym Hp))]; exact Hx. Qed.

Lemma separate_sub' u l l' : (forall x, In x l' -> In x l) -> separate ch u cid (velocity_for D s cid) l -> separate ch u cid (velocity_for D s cid) l'.
Proof. intros Hs Hp x y Hx Hy. apply Hp; apply Hs; assumption. Qed.

Lemma spends_perm tt b base l l' w w' : t_built X cid tt b base -> ins base = [] -> owned base = [] ->
  wk_main w = b -> wk_alt w = b -> wk_sum w = 0 -> wk_sum_alt w = 0 ->
  Permutation l l' -> NoDup (map in_out l) -> separate ch use_main cid (velocity_for D s cid) (other_types a l) ->
  spent_by w l w' -> exists w'', spent_by w l' w'' /\ eqv w' w''.
Proof.
  intros B Bi Bo Em Ea Es Esa Hp ND Hsep (K & Hm & Ha & Hs & Hsa & Hd & Hdm). pose proof (forallb_perm _ _ _ Hp K) as K'.
  assert (Hrun : forall m b', t_run X b (map call_of (flat_map put_of (with_method m l))) = Ok b' ->
            t_run X b (map call_of (flat_map put_of (with_method m l'))) = Ok b').
  { intros m b' E. pose proof (put_perm X cid tt b base (flat_map put_of (with_method m l)) (flat_map put_of (with_method m l'))
      (flat_map_perm _ _ _ (with_method_perm m _ _ Hp)) (put_movable _)) as Q. rewrite E in Q.
    assert (O : once (base ++ flat_map put_of (with_method m l))).
    { apply put_once; [exact Bi|exact Bo|apply NoDup_map_filter; exact ND| | |exists m; intros x Hx; apply In_with_method in Hx; apply Hx].
      - rewrite forallb_forall in K |- *. intros x Hx. apply In_with_method in Hx as [Hx _]. exact (K x Hx).
      - eapply separate_sub'; [|exact Hsep]. intros x Hx. unfold other_types in *. apply filter_In in Hx as [Hx Hf]. apply In_with_method in Hx as [Hx _].
        apply filter_In. auto. }
    specialize (Q O B). destruct (t_run X b (map call_of (flat_map put_of (with_method m l')))); [|contradiction..]. destruct Q as [-> _]. reflexivity. }
  exists {| wk_main := wk_main w'; wk_alt := wk_alt w'; wk_sum := wk_sum w'; wk_sum_alt := wk_sum_alt w'; wk_data := wk_data w ++ data_in a l'; wk_data_main := wk_data_main w' |}.
  rewrite Em in Hm. rewrite Ea in Ha. rewrite Es in Hs. rewrite Esa in Hsa. unfold spent_by. cbn. rewrite Em, Ea, Es, Esa. split.
  - split; [exact K'|]. split; [apply Hrun; exact Hm|]. split; [apply Hrun; exact Ha|].
    split; [eapply sums_perm; [apply flat_map_perm; exact Hp|unfold U64MAX; lia|exact Hs]|].
    split; [eapply sums_perm; [apply flat_map_perm, with_method_perm; exact Hp|unfold U64MAX; lia|exact Hsa]|].
    split; [reflexivity|]. rewrite <- (existsb_perm hit _ _ Hp). exact Hdm.
  - unfold eqv. cbn. repeat (split; [reflexivity|]). split; [|reflexivity]. rewrite Hd. apply Permutation_app_head. apply flat_map_perm. exact Hp.
Qed.
End Spend.
