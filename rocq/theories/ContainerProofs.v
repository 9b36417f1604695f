From Verif Require Import Base.
From Verif Require Import Core MergeModel MergeSpec MergeProofs ContainerModel ContainerSpec.
Local Open Scope N_scope.

(** ** Anchors *)
Lemma known_union_get : forall m k p,
  mget p (known_union k m) = match mget p k with Some v => Some v | None => mget p m end.
Proof.
  unfold known_union. induction m as [|[q v] m IH]; intros k p; cbn [fold_left].
  - cbn [mget]. destruct (mget p k); reflexivity.
  - rewrite IH. cbn [fst snd mget].
    destruct (mhas q k) eqn:Eh.
    + apply mhas_true in Eh as [w Eh].
      destruct (key_dec p q) as [->|Ne]; [rewrite Eh; reflexivity|].
      destruct (mget p k); [reflexivity|]. apply keqb_neq in Ne. rewrite Ne. reflexivity.
    + apply mhas_false in Eh. destruct (key_dec p q) as [->|Ne].
      * rewrite mget_insert_eq, Eh, keqb_refl. reflexivity.
      * rewrite mget_insert_ne by congruence. destruct (mget p k); [reflexivity|].
        apply keqb_neq in Ne. rewrite Ne. reflexivity.
Qed.

Lemma known_union_sorted : forall m k, msorted k -> msorted (known_union k m).
Proof.
  unfold known_union. induction m as [|[q v] m IH]; intros k Hk; cbn [fold_left]; [exact Hk|].
  apply IH. destruct (mhas _ k); [exact Hk|]. apply minsert_sorted. exact Hk.
Qed.

Lemma known_union_idem : forall k, known_union k k = k.
Proof.
  intros k. unfold known_union.
  assert (G : forall m, (forall p, In p m -> mhas (fst p) k = true) ->
     fold_left (fun acc p => if mhas (fst p) acc then acc else minsert (fst p) (snd p) acc) m k = k).
  { induction m as [|p m IH]; intros Hm; cbn [fold_left]; [reflexivity|].
    rewrite (Hm p) by (left; reflexivity). apply IH. intros q Hq. apply Hm. right; exact Hq. }
  apply G. intros [q v] Hin. apply mhas_true. apply mget_Some_in. cbn [fst].
  unfold mkeys. apply in_map_iff. exists (q, v). auto.
Qed.

Lemma merge_anchor_ok a b r : merge_anchor a b = Ok r ->
  compatible a b /\ joined (Some a) (Some b) (Some r).
Proof.
  unfold merge_anchor, compatible.
  destruct (N.eqb_spec (an_dbc a) (an_dbc b)) as [Ed|]; cbn [negb]; [|discriminate].
  destruct (N.eqb_spec (an_root a) (an_root b)) as [Er|]; cbn [negb]; [|discriminate].
  intros E. apply Ok_inj in E. subst r. split; [auto|]. cbn [joined an_dbc an_root an_known].
  repeat split. intros p. apply known_union_get.
Qed.

Lemma merge_anchor_total a b : compatible a b -> exists r, merge_anchor a b = Ok r.
Proof.
  intros [Ed Er]. unfold merge_anchor. rewrite Ed, Er, !N.eqb_refl. cbn [negb]. eauto.
Qed.

Lemma merge_anchor_fail a b : ~ compatible a b -> exists e, merge_anchor a b = Err e.
Proof.
  intros Hc. unfold merge_anchor.
  destruct (N.eqb_spec (an_dbc a) (an_dbc b)) as [Ed|]; cbn [negb]; [|eauto].
  destruct (N.eqb_spec (an_root a) (an_root b)) as [Er|]; cbn [negb]; [|eauto].
  exfalso. apply Hc. split; assumption.
Qed.

Lemma merge_anchor_idem a : merge_anchor a a = Ok a.
Proof.
  unfold merge_anchor. rewrite !N.eqb_refl. cbn [negb]. rewrite known_union_idem. destruct a; reflexivity.
Qed.

Lemma compatible_dec a b : {compatible a b} + {~ compatible a b}.
Proof.
  unfold compatible. destruct (N.eq_dec (an_dbc a) (an_dbc b)); [|right; tauto].
  destruct (N.eq_dec (an_root a) (an_root b)); [left|right]; tauto.
Qed.

Lemma compatible_sym a b : compatible a b -> compatible b a.
Proof. unfold compatible. intuition. Qed.

(** The mpc map of the double set *)
Lemma fold_insert_get {V} : forall (m k : omap N V) p, msorted m ->
  mget p (fold_left (fun m p => minsert (fst p) (snd p) m) m k)
  = match mget p m with Some v => Some v | None => mget p k end.
Proof.
  induction m as [|[q v] m IH]; intros k p Hs; cbn [fold_left]; [reflexivity|].
  apply msorted_inv in Hs as [Hs Hf]. rewrite IH by exact Hs. cbn [fst snd mget].
  destruct (key_dec p q) as [->|Ne].
  - rewrite keqb_refl, mget_insert_eq. destruct (mget q m) as [w|] eqn:E; [|reflexivity].
    exfalso. apply mget_In in E. rewrite Forall_forall in Hf. apply Hf in E.
    unfold key_lt in E. cbn [fst] in E. rewrite cmp_refl in E. discriminate.
  - rewrite mget_insert_ne by congruence. apply keqb_neq in Ne. rewrite Ne. reflexivity.
Qed.

Lemma fold_insert_sorted {V} : forall (m k : omap N V), msorted k ->
  msorted (fold_left (fun m p => minsert (fst p) (snd p) m) m k).
Proof.
  induction m as [|[q v] m IH]; intros k Hk; cbn [fold_left]; [exact Hk|].
  apply IH, minsert_sorted, Hk.
Qed.

Lemma In_mvals {V} (m : omap N V) v : msorted m -> In v (mvals m) <-> exists p, mget p m = Some v.
Proof.
  intros Hs. unfold mvals. rewrite in_map_iff. split.
  - intros ([p w] & <- & Hin). exists p. apply In_mget; assumption.
  - intros (p & E). apply mget_In in E. exists (p, v). auto.
Qed.

(** Reported ids, protocol by protocol: opret entries hide tapret entries *)
Definition reports (s : AnchorSet) (p id : N) : Prop :=
  match opret_of s, tapret_of s with
  | Some o, Some t =>
      mget p (an_known o) = Some id \/ (mget p (an_known o) = None /\ mget p (an_known t) = Some id)
  | Some o, None => mget p (an_known o) = Some id
  | None, Some t => mget p (an_known t) = Some id
  | None, None => False
  end.

Lemma known_bundle_ids_spec s id : anchor_wf s ->
  In id (known_bundle_ids s) <-> exists p, reports s p id.
Proof.
  intros Hw. unfold known_bundle_ids, reports. destruct s as [t|o|t o]; cbn [opret_of tapret_of].
  - apply In_mvals. apply Hw. left; reflexivity.
  - apply In_mvals. apply Hw. right; reflexivity.
  - assert (Ht : msorted (an_known t)) by (apply Hw; left; reflexivity).
    assert (Ho : msorted (an_known o)) by (apply Hw; right; reflexivity).
    rewrite In_mvals by (apply fold_insert_sorted; exact Ht).
    split; intros (p & E); exists p.
    + rewrite fold_insert_get in E by exact Ho.
      destruct (mget p (an_known o)); [left; exact E|right; auto].
    + rewrite fold_insert_get by exact Ho. destruct E as [E|[E1 E2]].
      * rewrite E. reflexivity.
      * rewrite E1. exact E2.
Qed.

Lemma merge_anchors_spec a b : 
  (compatible_opt (tapret_of a) (tapret_of b) /\ compatible_opt (opret_of a) (opret_of b) /\
   exists r, merge_anchors a b = Ok r /\
     (match tapret_of a, tapret_of b with Some _, Some _ => joined (tapret_of a) (tapret_of b) (tapret_of r)
                                            \/ joined (tapret_of b) (tapret_of a) (tapret_of r)
      | _, _ => joined (tapret_of a) (tapret_of b) (tapret_of r) end) /\
     (match opret_of a, opret_of b with Some _, Some _ => joined (opret_of a) (opret_of b) (opret_of r)
                                            \/ joined (opret_of b) (opret_of a) (opret_of r)
      | _, _ => joined (opret_of a) (opret_of b) (opret_of r) end)) \/
  (~ (compatible_opt (tapret_of a) (tapret_of b) /\ compatible_opt (opret_of a) (opret_of b)) /\
   exists e, merge_anchors a b = Err e).
Proof.
  assert (F : forall x y,
    (compatible x y /\ exists r, merge_anchor x y = Ok r /\ joined (Some x) (Some y) (Some r)) \/
    (~ compatible x y /\ exists e, merge_anchor x y = Err e)).
  { intros x y. destruct (compatible_dec x y) as [c|n].
    - left. split; [exact c|]. destruct (merge_anchor_total x y c) as [r Er].
      exists r. split; [exact Er|]. apply (merge_anchor_ok x y r Er).
    - right. split; [exact n|]. apply merge_anchor_fail. exact n. }
  destruct a as [x|x|x x'], b as [y|y|y y'];
    cbn [tapret_of opret_of compatible_opt merge_anchors].
  - destruct (F x y) as [(c & r & -> & J)|(n & e & ->)]; cbn [rmap].
    + left. split; [exact c|]. split; [exact I|]. exists (ASTapret r). cbn [tapret_of opret_of].
      split; [reflexivity|]. split; [left; exact J|exact I].
    + right. split; [tauto|eauto].
  - left. split; [exact I|]. split; [exact I|]. eexists. split; [reflexivity|]. cbn. auto.
  - destruct (F y x) as [(c & r & -> & J)|(n & e & ->)]; cbn [rbind].
    + left. apply compatible_sym in c. split; [first [exact c|exact I]|]. split; [first [exact c|exact I]|]. eexists. split; [reflexivity|].
      cbn [tapret_of opret_of]. split; [right; exact J|reflexivity].
    + right. split; [intros [c _]; apply n, compatible_sym, c|eauto].
  - left. split; [exact I|]. split; [exact I|]. eexists. split; [reflexivity|]. cbn. auto.
  - destruct (F x y) as [(c & r & -> & J)|(n & e & ->)]; cbn [rmap].
    + left. split; [exact I|]. split; [exact c|]. exists (ASOpret r). cbn [tapret_of opret_of].
      split; [reflexivity|]. split; [exact I|left; exact J].
    + right. split; [tauto|eauto].
  - destruct (F y' x) as [(c & r & -> & J)|(n & e & ->)]; cbn [rbind].
    + left. apply compatible_sym in c. split; [first [exact c|exact I]|]. split; [first [exact c|exact I]|]. eexists. split; [reflexivity|].
      cbn [tapret_of opret_of]. split; [reflexivity|right; exact J].
    + right. split; [intros [_ c]; apply n, compatible_sym, c|eauto].
  - destruct (F x y) as [(c & r & -> & J)|(n & e & ->)]; cbn [rbind].
    + left. split; [first [exact c|exact I]|]. split; [first [exact c|exact I]|]. eexists. split; [reflexivity|].
      cbn [tapret_of opret_of]. split; [left; exact J|reflexivity].
    + right. split; [tauto|eauto].
  - destruct (F x' y) as [(c & r & -> & J)|(n & e & ->)]; cbn [rbind].
    + left. split; [first [exact c|exact I]|]. split; [first [exact c|exact I]|]. eexists. split; [reflexivity|].
      cbn [tapret_of opret_of]. split; [reflexivity|left; exact J].
    + right. split; [tauto|eauto].
  - destruct (F x y) as [(c & r & -> & J)|(n & e & ->)]; cbn [rbind].
    + destruct (F x' y') as [(c' & r' & -> & J')|(n' & e & ->)]; cbn [rbind].
      * left. split; [exact c|]. split; [exact c'|]. eexists. split; [reflexivity|].
        cbn [tapret_of opret_of]. split; left; assumption.
      * right. split; [tauto|eauto].
    + right. split; [tauto|eauto].
Qed.

(** ** Carrying and iterating *)
Lemma anchored_iter_carries a e b : In (e, b) (anchored_iter a) <-> carries a e b.
Proof.
  destruct a as [t|o|t o]; unfold anchored_iter, di_iter, di_single, di_double; cbn; split.
  - intros [[= <- <-]|[]]. constructor.
  - intros C. inversion C. subst. auto.
  - intros [[= <- <-]|[]]. constructor.
  - intros C. inversion C. subst. auto.
  - intros [[= <- <-]|[[= <- <-]|[]]]; constructor.
  - intros C. inversion C; subst; auto.
Qed.

Lemma anchored_bundles_map a : anchored_bundles a = map snd (anchored_iter a).
Proof. destruct a; reflexivity. Qed.

(** ** Index *)
Section Last.
  Context {A K V : Type} {OK : OrdKey K}.
  Variables (key : A -> K) (val : A -> V).
  Definition ins (m : omap K V) (x : A) : omap K V := minsert (key x) (val x) m.

  Fixpoint last_by (k : K) (l : list A) : option A :=
    match l with
    | [] => None
    | x :: l' => match last_by k l' with
                 | Some y => Some y
                 | None => if keqb k (key x) then Some x else None
                 end
    end.

  Lemma last_by_Some k l x : last_by k l = Some x -> In x l /\ key x = k.
  Proof.
    induction l as [|a l IH]; cbn [last_by]; [discriminate|].
    destruct (last_by k l) as [y|].
    - intros E. destruct (IH E) as [Hi Ek]. split; [right|]; assumption.
    - destruct (keqb k (key a)) eqn:Ek; [|discriminate]. intros [= <-].
      apply keqb_true in Ek. split; [left; reflexivity|auto].
  Qed.

  Lemma last_by_None k l : last_by k l = None <-> forall x, In x l -> key x <> k.
  Proof.
    induction l as [|a l IH]; cbn [last_by].
    - split; [intros _ x []|reflexivity].
    - destruct (last_by k l) as [y|] eqn:El.
      + split; [discriminate|]. intros Hf. apply last_by_Some in El as [Hi Ek].
        exfalso. apply (Hf y); [right|]; assumption.
      + destruct (keqb k (key a)) eqn:Ek.
        * split; [discriminate|]. intros Hf. apply keqb_true in Ek.
          exfalso. apply (Hf a); [left|]; auto.
        * apply keqb_false in Ek. split; [|reflexivity]. intros _ x [<-|Hx]; [congruence|].
          apply IH; auto.
  Qed.

  Lemma fold_ins_get : forall l (m : omap K V) k,
    mget k (fold_left ins l m) =
    match last_by k l with Some x => Some (val x) | None => mget k m end.
  Proof.
    induction l as [|a l IH]; intros m k; cbn [fold_left last_by]; [reflexivity|].
    rewrite IH. destruct (last_by k l) as [y|]; [reflexivity|]. unfold ins.
    destruct (keqb k (key a)) eqn:Ek.
    - apply keqb_true in Ek. subst. apply mget_insert_eq.
    - apply keqb_false in Ek. apply mget_insert_ne. congruence.
  Qed.
End Last.

Definition triples (wb : WitnessBundle) : list (WitnessId * EAnchor * Bundle) :=
  map (fun p => (wb_id wb, fst p, snd p)) (anchored_iter (wb_bundles wb)).

Definition ops_of (H : Hashes) (x : WitnessId * EAnchor * Bundle) : list (N * (WitnessId * N)) :=
  let '(w, a, b) := x in map (fun k => (k, (w, bundle_id H b))) (mkeys (b_known b)).

Lemma fold_index_op w bid l : forall ix,
  ix_anchor (fold_left (index_op w bid) l ix) = ix_anchor ix /\
  ix_bundle (fold_left (index_op w bid) l ix) = ix_bundle ix /\
  ix_extension (fold_left (index_op w bid) l ix) = ix_extension ix /\
  ix_witness (fold_left (index_op w bid) l ix) = ix_witness ix /\
  ix_op_witness (fold_left (index_op w bid) l ix) =
    fold_left (ins fst (fun x => fst (snd x))) (map (fun k => (k, (w, bid))) l) (ix_op_witness ix) /\
  ix_op_bundle (fold_left (index_op w bid) l ix) =
    fold_left (ins fst (fun x => snd (snd x))) (map (fun k => (k, (w, bid))) l) (ix_op_bundle ix).
Proof.
  induction l as [|k l IH]; intros ix; cbn [fold_left map]; [auto 10|].
  destruct (IH (index_op w bid ix k)) as (A & B & C & D & E & F).
  rewrite A, B, C, D, E, F. repeat split.
Qed.

Definition t_bid (H : Hashes) (x : WitnessId * EAnchor * Bundle) : N := bundle_id H (snd x).

Lemma fold_index_anchored H w l : forall ix,
  let xs := map (fun p : EAnchor * Bundle => (w, fst p, snd p)) l in
  let r := fold_left (index_anchored H w) l ix in
  ix_anchor r = fold_left (ins (t_bid H) (fun x => fst x)) xs (ix_anchor ix) /\
  ix_bundle r = fold_left (ins (t_bid H) (fun x => snd x)) xs (ix_bundle ix) /\
  ix_extension r = ix_extension ix /\
  ix_witness r = ix_witness ix /\
  ix_op_witness r = fold_left (ins fst (fun x => fst (snd x))) (flat_map (ops_of H) xs) (ix_op_witness ix) /\
  ix_op_bundle r = fold_left (ins fst (fun x => snd (snd x))) (flat_map (ops_of H) xs) (ix_op_bundle ix).
Proof.
  induction l as [|p l IH]; intros ix xs r; [repeat split|].
  subst xs r. cbn [fold_left map flat_map]. destruct (IH (index_anchored H w ix p)) as (A & B & C & D & E & F).
  rewrite A, B, C, D, E, F. clear A B C D E F IH.
  unfold index_anchored at 1 2 3 4 5 6.
  destruct (fold_index_op w (bundle_id H (snd p)) (mkeys (b_known (snd p)))
     {| ix_anchor := minsert (bundle_id H (snd p)) (w, fst p) (ix_anchor ix);
        ix_bundle := minsert (bundle_id H (snd p)) (snd p) (ix_bundle ix);
        ix_op_witness := ix_op_witness ix; ix_op_bundle := ix_op_bundle ix;
        ix_extension := ix_extension ix; ix_witness := ix_witness ix |}) as (A & B & C & D & E & F).
  rewrite A, B, C, D, E, F. cbn [ix_anchor ix_bundle ix_op_witness ix_op_bundle ix_extension ix_witness].
  rewrite !fold_left_app. repeat split.
Qed.

Lemma fold_index_witness H l : forall ix,
  let xs := flat_map triples l in
  let r := fold_left (index_witness H) l ix in
  ix_anchor r = fold_left (ins (t_bid H) (fun x => fst x)) xs (ix_anchor ix) /\
  ix_bundle r = fold_left (ins (t_bid H) (fun x => snd x)) xs (ix_bundle ix) /\
  ix_extension r = ix_extension ix /\
  ix_witness r = fold_left (ins wb_id wb_witness) l (ix_witness ix) /\
  ix_op_witness r = fold_left (ins fst (fun x => fst (snd x))) (flat_map (ops_of H) xs) (ix_op_witness ix) /\
  ix_op_bundle r = fold_left (ins fst (fun x => snd (snd x))) (flat_map (ops_of H) xs) (ix_op_bundle ix).
Proof.
  induction l as [|wb l IH]; intros ix xs r; [repeat split|].
  subst xs r. cbn [fold_left flat_map]. destruct (IH (index_witness H ix wb)) as (A & B & C & D & E & F).
  rewrite A, B, C, D, E, F. clear A B C D E F IH.
  unfold index_witness at 1 2 3 4 5 6.
  destruct (fold_index_anchored H (wb_id wb) (anchored_iter (wb_bundles wb))
    {| ix_anchor := ix_anchor ix; ix_bundle := ix_bundle ix;
       ix_op_witness := ix_op_witness ix; ix_op_bundle := ix_op_bundle ix;
       ix_extension := ix_extension ix;
       ix_witness := minsert (wb_id wb) (wb_witness wb) (ix_witness ix) |}) as (A & B & C & D & E & F).
  rewrite A, B, C, D, E, F. cbn [ix_anchor ix_bundle ix_op_witness ix_op_bundle ix_extension ix_witness].
  rewrite flat_map_app, !fold_left_app. repeat split.
Qed.

Lemma fold_index_extension H l : forall ix,
  let r := fold_left (index_extension H) l ix in
  ix_anchor r = ix_anchor ix /\ ix_bundle r = ix_bundle ix /\
  ix_extension r = fold_left (ins (op_id H) (fun x => x)) l (ix_extension ix) /\
  ix_witness r = ix_witness ix /\ ix_op_witness r = ix_op_witness ix /\
  ix_op_bundle r = ix_op_bundle ix.
Proof.
  induction l as [|e l IH]; intros ix r; [repeat split|].
  subst r. cbn [fold_left]. destruct (IH (index_extension H ix e)) as (A & B & C & D & E & F).
  rewrite A, B, C, D, E, F. repeat split.
Qed.

Lemma index_new_fields H c :
  let xs := flat_map triples (c_bundles c) in
  let r := index_new H c in
  ix_anchor r = fold_left (ins (t_bid H) (fun x => fst x)) xs [] /\
  ix_bundle r = fold_left (ins (t_bid H) (fun x => snd x)) xs [] /\
  ix_extension r = fold_left (ins (op_id H) (fun x => x)) (c_extensions c) [] /\
  ix_witness r = fold_left (ins wb_id wb_witness) (c_bundles c) [] /\
  ix_op_witness r = fold_left (ins fst (fun x => fst (snd x))) (flat_map (ops_of H) xs) [] /\
  ix_op_bundle r = fold_left (ins fst (fun x => snd (snd x))) (flat_map (ops_of H) xs) [].
Proof.
  intros xs r. unfold r, index_new.
  destruct (fold_index_extension H (c_extensions c) (fold_left (index_witness H) (c_bundles c) index_empty))
    as (A & B & C & D & E & F).
  rewrite A, B, C, D, E, F.
  destruct (fold_index_witness H (c_bundles c) index_empty) as (A' & B' & C' & D' & E' & F').
  rewrite A', B', C', D', E', F'. repeat split.
Qed.

Lemma in_triples c w a b : In (w, a, b) (flat_map triples (c_bundles c)) <-> holds c w a b.
Proof.
  unfold holds. rewrite in_flat_map. split.
  - intros (wb & Hin & Ht). unfold triples in Ht. apply in_map_iff in Ht as ([e b'] & E & Hi).
    cbn [fst snd] in E. injection E as <- <- <-. apply anchored_iter_carries in Hi. eauto.
  - intros (wb & Hin & <- & C). exists wb. split; [exact Hin|]. unfold triples. apply in_map_iff.
    exists (a, b). split; [reflexivity|]. apply anchored_iter_carries. exact C.
Qed.

Lemma index_bundle_spec H c bid :
  match index_bundle H c bid, index_anchor H c bid with
  | Some b, Some (w, a) => holds c w a b /\ bundle_id H b = bid
  | None, None => forall w a b, holds c w a b -> bundle_id H b <> bid
  | _, _ => False
  end.
Proof.
  unfold index_bundle, index_anchor.
  destruct (index_new_fields H c) as (A & B & _). rewrite A, B. clear A B.
  rewrite (fold_ins_get (t_bid H) (fun x => snd x)), (fold_ins_get (t_bid H) (fun x => fst x)).
  destruct (last_by (t_bid H) bid (flat_map triples (c_bundles c))) as [[[w a] b]|] eqn:E; cbn [fst snd mget].
  - apply last_by_Some in E as [Hi Ek]. apply in_triples in Hi. auto.
  - intros w a b Hh. pose proof (proj1 (last_by_None _ _ _) E (w, a, b)) as Hn.
    apply Hn. apply in_triples. exact Hh.
Qed.

Lemma fold_ins_keys {A K V} `{OrdKey K} (key : A -> K) (val : A -> V) l m k :
  In k (mkeys (fold_left (ins key val) l m)) <-> (exists x, In x l /\ key x = k) \/ In k (mkeys m).
Proof.
  rewrite !mget_Some_in. rewrite fold_ins_get. destruct (last_by key k l) as [x|] eqn:E.
  - apply last_by_Some in E as [Hi Ek]. split; [eauto|intros _; eauto].
  - rewrite (last_by_None key) in E. split; [auto|]. intros [(x & Hi & Ek)|Hm]; [|exact Hm].
    exfalso. apply (E x Hi Ek).
Qed.

Lemma index_bundle_ids_spec H c :
  NoDup (index_bundle_ids H c) /\
  forall bid, In bid (index_bundle_ids H c) <-> exists w a b, holds c w a b /\ bundle_id H b = bid.
Proof.
  unfold index_bundle_ids. split; [apply ssorted_NoDup, sfrom_sorted|]. intros bid.
  rewrite sfrom_In. destruct (index_new_fields H c) as (_ & B & _). rewrite B.
  rewrite fold_ins_keys. split.
  - intros [([[w a] b] & Hi & Ek)|[]]. apply in_triples in Hi. exists w, a, b. auto.
  - intros (w & a & b & Hh & Ek). left. exists (w, a, b). split; [apply in_triples|]; assumption.
Qed.

Lemma in_ops_of H w a b k y : In (k, y) (ops_of H (w, a, b)) <->
  y = (w, bundle_id H b) /\ exists t, mget k (b_known b) = Some t.
Proof.
  unfold ops_of. rewrite in_map_iff. split.
  - intros (k' & E & Hi). injection E as -> <-. split; [reflexivity|]. apply mget_Some_in. exact Hi.
  - intros [-> Hi]. exists k. split; [reflexivity|]. apply mget_Some_in. exact Hi.
Qed.

Lemma index_op_spec H c opid :
  match index_op_witness_id H c opid, mget opid (ix_op_bundle (index_new H c)) with
  | Some w, Some bid => exists a b t, holds c w a b /\ bundle_id H b = bid /\ mget opid (b_known b) = Some t
  | None, None => forall w a b, holds c w a b -> mget opid (b_known b) = None
  | _, _ => False
  end.
Proof.
  unfold index_op_witness_id.
  destruct (index_new_fields H c) as (_ & _ & _ & _ & A & B). rewrite A, B. clear A B.
  rewrite (fold_ins_get fst (fun x => fst (snd x))), (fold_ins_get fst (fun x => snd (snd x))).
  set (L := flat_map (ops_of H) _).
  destruct (last_by fst opid L) as [[k [w bid]]|] eqn:E; cbn [fst snd mget].
  - apply last_by_Some in E as [Hi Ek]. cbn [fst] in Ek. subst k.
    unfold L in Hi. apply in_flat_map in Hi as ([[w' a] b] & Hx & Hi).
    apply in_ops_of in Hi as [E (t & Et)]. injection E as -> ->. apply in_triples in Hx. eauto 6.
  - rewrite (last_by_None fst) in E. intros w a b Hh. destruct (mget opid (b_known b)) as [t|] eqn:Et; [|reflexivity].
    exfalso. apply (E (opid, (w, bundle_id H b))); [|reflexivity]. unfold L. apply in_flat_map.
    exists (w, a, b). split; [apply in_triples; exact Hh|]. apply in_ops_of. eauto.
Qed.

Lemma index_extension_spec H c opid :
  match mget opid (ix_extension (index_new H c)) with
  | Some e => In e (c_extensions c) /\ op_id H e = opid
  | None => forall e, In e (c_extensions c) -> op_id H e <> opid
  end.
Proof.
  destruct (index_new_fields H c) as (_ & _ & A & _). rewrite A, fold_ins_get.
  destruct (last_by (op_id H) opid (c_extensions c)) as [e|] eqn:E; cbn [mget].
  - apply last_by_Some in E. exact E.
  - apply last_by_None. exact E.
Qed.

Lemma index_pub_witness_spec H c w :
  match index_pub_witness H c w with
  | Some p => exists wb, In wb (c_bundles c) /\ wb_witness wb = p /\ witness_id p = w
  | None => forall wb, In wb (c_bundles c) -> wb_id wb <> w
  end.
Proof.
  unfold index_pub_witness. destruct (index_new_fields H c) as (_ & _ & _ & A & _). rewrite A, fold_ins_get.
  destruct (last_by wb_id w (c_bundles c)) as [wb|] eqn:E; cbn [mget].
  - apply last_by_Some in E as [Hi Ek]. exists wb. auto.
  - apply last_by_None. exact E.
Qed.

Lemma index_operation_sound H c opid o :
  index_operation H c opid = Some o -> contains_op H c opid o.
Proof.
  unfold index_operation. destruct (N.eqb_spec opid (op_id H (c_genesis c))) as [->|Ne].
  - intros [= <-]. apply co_genesis; reflexivity.
  - unfold index_transition. pose proof (index_op_spec H c opid) as Sop.
    destruct (mget opid (ix_op_bundle (index_new H c))) as [bid|].
    + pose proof (index_bundle_spec H c bid) as Sb. unfold index_bundle in Sb.
      destruct (mget bid (ix_bundle (index_new H c))) as [b|].
      * destruct (index_anchor H c bid) as [[w a]|]; [|contradiction]. destruct Sb as [Hh Eb].
        destruct (mget opid (b_known b)) as [t|] eqn:Et.
        -- intros [= <-]. eapply co_transition; eassumption.
        -- pose proof (index_extension_spec H c opid) as Se. intros E. rewrite E in Se.
           apply co_extension; apply Se.
      * pose proof (index_extension_spec H c opid) as Se. intros E. rewrite E in Se.
        apply co_extension; apply Se.
    + pose proof (index_extension_spec H c opid) as Se. intros E. rewrite E in Se.
      apply co_extension; apply Se.
Qed.

Lemma index_operation_complete H c opid : copies_agree H c ->
  index_operation H c opid = None -> forall o, ~ contains_op H c opid o.
Proof.
  intros Hca. unfold index_operation.
  destruct (N.eqb_spec opid (op_id H (c_genesis c))) as [->|Ne]; [discriminate|].
  unfold index_transition. pose proof (index_op_spec H c opid) as Sop.
  destruct (index_op_witness_id H c opid) as [w|],
           (mget opid (ix_op_bundle (index_new H c))) as [bid|]; try contradiction.
  - destruct Sop as (a & b & t & Hh & Eb & Et).
    pose proof (index_bundle_spec H c bid) as Sb. unfold index_bundle in Sb.
    destruct (mget bid (ix_bundle (index_new H c))) as [b'|].
    + destruct (index_anchor H c bid) as [[w' a']|]; [|contradiction]. destruct Sb as [Hh' Eb'].
      assert (Ek : b_known b' = b_known b) by (eapply Hca; [eassumption..|congruence]).
      rewrite Ek, Et. discriminate.
    + destruct (index_anchor H c bid); [contradiction|]. exfalso. apply (Sb _ _ _ Hh Eb).
  - pose proof (index_extension_spec H c opid) as Se. intros E. rewrite E in Se.
    intros o [Hg Eg|w a b Hh Et|Hi Ee].
    + subst o. congruence.
    + rewrite (Sop _ _ _ Hh) in Et. discriminate.
    + apply (Se o Hi Ee).
Qed.

(** ** Revealing in witness bundles *)
Lemma reveal_bundle_id H s b : bundle_id H (reveal_bundle H s b) = bundle_id H b.
Proof. reflexivity. Qed.

Lemma methods_ids H t o : collision_free H -> methods_ok (ABDouble t o) ->
  bundle_id H (cb_bundle t) <> bundle_id H (cb_bundle o).
Proof.
  intros (_ & _ & _ & Hb) [Et Eo] E. unfold bundle_id in E. apply Hb in E as [Em _]. congruence.
Qed.

Lemma wb_reveal_seal_spec H bid seal w : collision_free H -> methods_ok (wb_bundles w) ->
  (fst (wb_reveal_seal H bid seal w) = true <->
     exists a b, carries (wb_bundles w) a b /\ bundle_id H b = bid) /\
  witness_rel (fun b b' => if bundle_id H b =? bid then b' = reveal_bundle H seal b else b' = b)
              w (snd (wb_reveal_seal H bid seal w)).
Proof.
  intros HC Hm. unfold wb_reveal_seal, witness_rel.
  destruct (wb_bundles w) as [t|o|t o] eqn:Ew.
  - destruct (N.eqb_spec (bundle_id H (cb_bundle t)) bid) as [E|E]; cbn [fst snd wb_witness wb_bundles].
    + split; [split; [intros _|reflexivity]|].
      * exists (cb_anchor t), (cb_bundle t). split; [constructor|exact E].
      * split; [reflexivity|]. cbn. unfold client_rel. cbn. rewrite E, N.eqb_refl. auto.
    + split; [split; [discriminate|]|].
      * intros (a & b & C & Eb). inversion C; subst. contradiction.
      * rewrite Ew. split; [reflexivity|]. cbn. unfold client_rel. rewrite (proj2 (N.eqb_neq _ _) E). auto.
  - destruct (N.eqb_spec (bundle_id H (cb_bundle o)) bid) as [E|E]; cbn [fst snd wb_witness wb_bundles].
    + split; [split; [intros _|reflexivity]|].
      * exists (cb_anchor o), (cb_bundle o). split; [constructor|exact E].
      * split; [reflexivity|]. cbn. unfold client_rel. cbn. rewrite E, N.eqb_refl. auto.
    + split; [split; [discriminate|]|].
      * intros (a & b & C & Eb). inversion C; subst. contradiction.
      * rewrite Ew. split; [reflexivity|]. cbn. unfold client_rel. rewrite (proj2 (N.eqb_neq _ _) E). auto.
  - pose proof (methods_ids H t o HC Hm) as Nid.
    destruct (N.eqb_spec (bundle_id H (cb_bundle t)) bid) as [E|E]; cbn [fst snd wb_witness wb_bundles].
    + split; [split; [intros _|reflexivity]|].
      * exists (cb_anchor t), (cb_bundle t). split; [constructor|exact E].
      * split; [reflexivity|]. cbn. unfold client_rel. cbn. rewrite E, N.eqb_refl.
        assert (E' : bundle_id H (cb_bundle o) <> bid) by congruence.
        rewrite (proj2 (N.eqb_neq _ _) E'). auto 8.
    + destruct (N.eqb_spec (bundle_id H (cb_bundle o)) bid) as [E'|E']; cbn [fst snd wb_witness wb_bundles].
      * split; [split; [intros _|reflexivity]|].
        -- exists (cb_anchor o), (cb_bundle o). split; [constructor|exact E'].
        -- split; [reflexivity|]. cbn. unfold client_rel. cbn. rewrite E', N.eqb_refl.
           rewrite (proj2 (N.eqb_neq _ _) E). auto 8.
      * split; [split; [discriminate|]|].
        -- intros (a & b & C & Eb). inversion C; subst; contradiction.
        -- rewrite Ew. split; [reflexivity|]. cbn. unfold client_rel.
           rewrite (proj2 (N.eqb_neq _ _) E), (proj2 (N.eqb_neq _ _) E'). auto 8.
Qed.

Lemma client_rel_refl (R : Bundle -> Bundle -> Prop) c : (forall b, R b b) -> client_rel R c c.
Proof. intros Hr. repeat split. apply Hr. Qed.
Lemma witness_rel_refl (R : Bundle -> Bundle -> Prop) w : (forall b, R b b) -> witness_rel R w w.
Proof.
  intros Hr. split; [reflexivity|]. destruct (wb_bundles w); cbn; auto using client_rel_refl.
Qed.
Lemma client_rel_trans (R S T : Bundle -> Bundle -> Prop) a b c :
  (forall x y z, R x y -> S y z -> T x z) -> client_rel R a b -> client_rel S b c -> client_rel T a c.
Proof. intros Hrs (A & B & C) (A' & B' & C'). repeat split; [congruence..|]. eapply Hrs; eassumption. Qed.
Lemma witness_rel_trans (R S T : Bundle -> Bundle -> Prop) a b c :
  (forall x y z, R x y -> S y z -> T x z) -> witness_rel R a b -> witness_rel S b c -> witness_rel T a c.
Proof.
  intros Hrs (A & B) (A' & B'). split; [congruence|].
  destruct (wb_bundles a), (wb_bundles b), (wb_bundles c); cbn in *; try contradiction;
    try (eapply client_rel_trans; eassumption).
  destruct B, B'. split; eapply client_rel_trans; eassumption.
Qed.
Lemma witness_rel_impl (R S : Bundle -> Bundle -> Prop) a b :
  (forall x y, R x y -> S x y) -> witness_rel R a b -> witness_rel S a b.
Proof.
  intros Hrs (A & B). split; [exact A|].
  destruct (wb_bundles a), (wb_bundles b); cbn in *; try contradiction; unfold client_rel in *; intuition.
Qed.

Lemma wb_reveal_methods H bid seal w : methods_ok (wb_bundles w) ->
  methods_ok (wb_bundles (snd (wb_reveal_seal H bid seal w))).
Proof.
  unfold wb_reveal_seal. destruct (wb_bundles w) as [t|o|t o] eqn:E; intros Hm;
    repeat match goal with |- context [if ?b then _ else _] => destruct b end;
    cbn [snd wb_bundles]; rewrite ?E; exact Hm.
Qed.

(** One witness bundle, all terminals *)
Lemma reveal_terms_ok {E} H (f : N -> result E (option Seal)) : collision_free H ->
  forall terms w w', msorted terms -> methods_ok (wb_bundles w) ->
  rfold (fun wb p => let! s := f (snd p) in
                     match s with
                     | Some seal => Ok (snd (wb_reveal_seal H (fst p) seal wb))
                     | None => Ok wb
                     end) w terms = Ok w' ->
  witness_rel (terminal_revealed H f terms) w w'.
Proof.
  intros HC. induction terms as [|[bid sec] terms IH]; intros w w' Hs Hm; cbn [rfold].
  - intros Er. apply Ok_inj in Er. subst w'. apply witness_rel_refl. intros b. reflexivity.
  - apply msorted_inv in Hs as [Hs Hf].
    assert (Nt : mget bid terms = None).
    { destruct (mget bid terms) as [x|] eqn:Ex; [|reflexivity]. apply mget_In in Ex.
      rewrite Forall_forall in Hf. apply Hf in Ex. unfold key_lt in Ex. cbn [fst] in Ex.
      rewrite cmp_refl in Ex. discriminate. }
    cbn [fst snd]. destruct (f sec) as [[seal|]|e|] eqn:Ef; cbn [rbind]; try discriminate.
    + intros Er. apply IH in Er; [|exact Hs|apply wb_reveal_methods; exact Hm].
      destruct (wb_reveal_seal_spec H bid seal w HC Hm) as [_ Hw].
      eapply witness_rel_trans; [|exact Hw|exact Er].
      intros x y z Hxy Hyz. cbn beta in Hxy. unfold terminal_revealed in Hyz |- *. cbn [mget].
      destruct (N.eqb_spec (bundle_id H x) bid) as [Eb|Eb].
      * rewrite Eb, keqb_refl, Ef. subst y. rewrite reveal_bundle_id, Eb, Nt in Hyz. exact Hyz.
      * subst y. apply keqb_neq in Eb. rewrite Eb. exact Hyz.
    + intros Er. apply IH in Er; [|exact Hs|exact Hm].
      eapply witness_rel_impl; [|exact Er]. intros x y Hxy. unfold terminal_revealed in *. cbn [mget].
      destruct (key_dec (bundle_id H x) bid) as [Eb|Eb].
      * rewrite Eb, keqb_refl, Ef. rewrite Eb, Nt in Hxy. exact Hxy.
      * apply keqb_neq in Eb. rewrite Eb. exact Hxy.
Qed.

Lemma reveal_terms_total {E} H (f : N -> result E (option Seal)) : forall terms w,
  (forall k s, In (k, s) terms -> exists o, f s = Ok o) ->
  exists w', rfold (fun wb p => let! s := f (snd p) in
                     match s with
                     | Some seal => Ok (snd (wb_reveal_seal H (fst p) seal wb))
                     | None => Ok wb
                     end) w terms = Ok w'.
Proof.
  induction terms as [|[bid sec] terms IH]; intros w Hf; cbn [rfold]; [eauto|].
  destruct (Hf bid sec (or_introl eq_refl)) as [o Eo]. cbn [fst snd]. rewrite Eo. cbn [rbind].
  destruct o; apply IH; intros k s' Hi; apply (Hf k s'); right; exact Hi.
Qed.

Lemma reveal_terminal_seals_ok {E} H (f : N -> result E (option Seal)) c r : collision_free H ->
  msorted (c_terminals c) -> (forall wb, In wb (c_bundles c) -> methods_ok (wb_bundles wb)) ->
  reveal_terminal_seals H f c = Ok r ->
  r = set_bundles c (c_bundles r) /\
  Forall2 (witness_rel (terminal_revealed H f (c_terminals c))) (c_bundles c) (c_bundles r).
Proof.
  intros HC Hs Hm. unfold reveal_terminal_seals.
  set (g := fun acc wb => _).
  assert (G : forall l acc bs, (forall wb, In wb l -> methods_ok (wb_bundles wb)) ->
    rfold g acc l = Ok bs ->
    exists bs', bs = acc ++ bs' /\ Forall2 (witness_rel (terminal_revealed H f (c_terminals c))) l bs').
  { induction l as [|wb l IH]; intros acc bs Hl; cbn [rfold].
    - intros Er. apply Ok_inj in Er. exists []. rewrite app_nil_r. auto.
    - unfold g at 1. destruct (rfold _ wb (c_terminals c)) as [wb'|e|] eqn:Ew; cbn [rbind]; try discriminate.
      intros Er. apply IH in Er as (bs' & -> & F); [|intros x Hx; apply Hl; right; exact Hx].
      exists (wb' :: bs'). rewrite <- app_assoc. split; [reflexivity|]. constructor; [|exact F].
      eapply reveal_terms_ok; eauto. apply Hl. left; reflexivity. }
  destruct (rfold g [] (c_bundles c)) as [bs|e|] eqn:Er; cbn [rbind]; try discriminate.
  intros Ec. apply Ok_inj in Ec. subst r. apply G in Er as (bs' & -> & F); [|exact Hm].
  cbn [app]. split; [destruct c; reflexivity|]. exact F.
Qed.

Lemma reveal_terminal_seals_total {E} H (f : N -> result E (option Seal)) c :
  (forall k s, In (k, s) (c_terminals c) -> exists o, f s = Ok o) ->
  exists r, reveal_terminal_seals H f c = Ok r.
Proof.
  intros Hf. unfold reveal_terminal_seals. set (g := fun acc wb => _).
  assert (G : forall l acc, exists bs, rfold g acc l = Ok bs).
  { induction l as [|wb l IH]; intros acc; cbn [rfold]; [eauto|].
    unfold g at 1. destruct (reveal_terms_total H f (c_terminals c) wb Hf) as [w' ->]. cbn [rbind].
    apply IH. }
  destruct (G (c_bundles c) []) as [bs ->]. cbn [rbind]. eauto.
Qed.

(** ** Revealing transitions *)
Lemma reveal_transition_spec H c t :
  let b := cb_bundle c in
  (forall k x, mget k (b_known b) = Some x -> In k (mvals (b_inputs b))) ->
  msorted (b_known b) -> len (b_inputs b) <= U16MAX ->
  if negb (existsb (N.eqb (op_id H t)) (mvals (b_inputs b)))
  then reveal_transition H c t = Err (UnrelatedTransition (op_id H t))
  else exists c', reveal_transition H c t = Ok (negb (mhas (op_id H t) (b_known b)), c') /\
       cb_mpc c' = cb_mpc c /\ cb_dbc c' = cb_dbc c /\
       b_method (cb_bundle c') = b_method b /\ b_inputs (cb_bundle c') = b_inputs b /\
       forall k, mget k (b_known (cb_bundle c')) =
                 match mget k (b_known b) with
                 | Some x => Some x
                 | None => if k =? op_id H t then Some t else None
                 end.
Proof.
  intros b Hin Hs Hl. unfold reveal_transition. fold b.
  assert (Ef : forallb (fun id => negb (id =? op_id H t)) (mvals (b_inputs b))
               = negb (existsb (N.eqb (op_id H t)) (mvals (b_inputs b)))).
  { clear. generalize (op_id H t). intros i. generalize (mvals (b_inputs b)). intros l.
    induction l as [|x l IH]; cbn; [reflexivity|]. rewrite IH, negb_orb, (N.eqb_sym x). reflexivity. }
  rewrite Ef. destruct (existsb (N.eqb (op_id H t)) (mvals (b_inputs b))) eqn:Ee; cbn [negb]; [|reflexivity].
  destruct (mhas (op_id H t) (b_known b)) eqn:Eh; cbn [negb].
  - exists c. fold b. repeat split. intros k. destruct (mget k (b_known b)) eqn:Ek; [reflexivity|].
    destruct (N.eqb_spec k (op_id H t)) as [->|_]; [|reflexivity].
    apply mhas_true in Eh as [x Ex]. congruence.
  - apply mhas_false in Eh. unfold cinsert.
    assert (L : len (b_known b) < U16MAX).
    { apply existsb_exists in Ee as (i & Hi & Ei). apply N.eqb_eq in Ei. subst i.
      assert (Hincl : incl (op_id H t :: mkeys (b_known b)) (mvals (b_inputs b))).
      { intros k [<-|Hk]; [exact Hi|]. apply mget_Some_in in Hk as [x Hx]. eapply Hin; eassumption. }
      assert (Hnd : NoDup (op_id H t :: mkeys (b_known b))).
      { constructor; [|apply msorted_NoDup; exact Hs]. apply mget_None_notin. exact Eh. }
      pose proof (NoDup_incl_length Hnd Hincl) as Le. cbn [length] in Le.
      unfold mkeys, mvals in Le. rewrite !map_length in Le. unfold len in *. lia. }
    rewrite (proj2 (N.ltb_lt _ _) L). cbn [expect rbind].
    eexists. split; [reflexivity|]. cbn [cb_mpc cb_dbc cb_bundle b_method b_inputs b_known].
    repeat split. intros k. destruct (N.eqb_spec k (op_id H t)) as [->|Ne].
    + rewrite mget_insert_eq, Eh. reflexivity.
    + rewrite mget_insert_ne by congruence. destruct (mget k (b_known b)); reflexivity.
Qed.

(** ** Method sets and batches *)
Lemma or_tapret a b : has_tapret_first (methodset_or a b) = has_tapret_first a || has_tapret_first b.
Proof. destruct a, b; reflexivity. Qed.
Lemma or_opret a b : has_opret_first (methodset_or a b) = has_opret_first a || has_opret_first b.
Proof. destruct a, b; reflexivity. Qed.

Lemma close_method_set_fold b :
  exists l, Permutation l (map (fun i => methodset_of (ti_method i)) (tl (batch_slots b))) /\
  close_method_set b = fold_left methodset_or l (methodset_of (ti_method (di_first (ba_main b)))).
Proof.
  unfold close_method_set, batch_slots. cbn [tl].
  exists (match di_second (ba_main b) with Some i => [methodset_of (ti_method i)] | None => [] end
     ++ map (fun d => methodset_of (ti_method (di_first d))) (ba_blanks b)
     ++ map (fun i => methodset_of (ti_method i)) (filter_map di_second (ba_blanks b))).
  split.
  - rewrite !map_app, !map_map. destruct (di_second (ba_main b)); reflexivity.
  - assert (F : forall {A} (g : A -> MethodSet) l ms,
       fold_left (fun ms d => methodset_or ms (g d)) l ms = fold_left methodset_or (map g l) ms).
    { intros A g. induction l as [|x l IH]; intros ms; cbn; [reflexivity|apply IH]. }
    rewrite !fold_left_app.
    rewrite (F _ (fun d => methodset_of (ti_method (di_first d)))).
    rewrite (F _ (fun i => methodset_of (ti_method i))).
    destruct (di_second (ba_main b)); reflexivity.
Qed.

Lemma fold_or_has (g : MethodSet -> bool) :
  (forall a b, g (methodset_or a b) = g a || g b) ->
  forall l ms, g (fold_left methodset_or l ms) = true <-> g ms = true \/ exists x, In x l /\ g x = true.
Proof.
  intros Hg. induction l as [|a l IH]; intros ms; cbn [fold_left].
  - split; [auto|]. intros [E|(x & [] & _)]. exact E.
  - rewrite IH, Hg, orb_true_iff. split.
    + intros [[E|E]|(x & Hx & E)]; [left|right; exists a|right; exists x]; cbn; auto.
    + intros [E|(x & [<-|Hx] & E)]; [auto|auto|]. right. eauto.
Qed.

Lemma batch_has (g : MethodSet -> bool) : (forall a b, g (methodset_or a b) = g a || g b) ->
  forall b, g (close_method_set b) = true <->
            exists i, In i (batch_slots b) /\ g (methodset_of (ti_method i)) = true.
Proof.
  intros Hg b. destruct (close_method_set_fold b) as (l & P & ->). rewrite fold_or_has by exact Hg.
  change (batch_slots b) with (di_first (ba_main b) :: tl (batch_slots b)). split.
  - intros [E|(x & Hx & E)].
    + exists (di_first (ba_main b)). split; [left; reflexivity|exact E].
    + apply (Permutation_in _ P) in Hx. apply in_map_iff in Hx as (i & <- & Hi).
      exists i. split; [right; exact Hi|exact E].
  - intros (i & [<-|Hi] & E); [left; exact E|]. right. exists (methodset_of (ti_method i)).
    split; [|exact E]. apply (Permutation_in _ (Permutation_sym P)). apply in_map_iff. eauto.
Qed.

Lemma di_iter_perm {A} : forall l : list (Dichotomy A),
  Permutation (flat_map di_iter l) (map di_first l ++ filter_map di_second l).
Proof.
  induction l as [|d l IH]; [reflexivity|]. cbn [flat_map map filter_map app].
  unfold di_iter at 1. cbn [app]. apply perm_skip. destruct (di_second d) as [s|]; cbn [app].
  - etransitivity; [apply perm_skip, IH|]. apply Permutation_middle.
  - exact IH.
Qed.

Lemma batch_iter_perm b : Permutation (batch_iter b) (batch_slots b).
Proof.
  unfold batch_iter, batch_slots. rewrite flat_map_app. cbn [flat_map]. rewrite app_nil_r.
  etransitivity; [apply Permutation_app_comm|]. unfold di_iter at 1. cbn [app].
  apply perm_skip, Permutation_app_head, di_iter_perm.
Qed.

Lemma batch_slots_priority p b :
  batch_slots (set_priority p b) = map (set_info_nonce p) (batch_slots b).
Proof.
  unfold batch_slots, set_priority. cbn [ba_main ba_blanks di_first di_second set_pair_nonce map].
  f_equal. rewrite !map_app, !map_map. f_equal.
  - unfold set_pair_nonce. cbn. destruct (di_second (ba_main b)); reflexivity.
  - f_equal. induction (ba_blanks b) as [|d l IH]; [reflexivity|]. cbn [map filter_map].
    unfold set_pair_nonce at 1. cbn [di_second]. destruct (di_second d); cbn [option_map map];
      [f_equal|]; exact IH.
Qed.
