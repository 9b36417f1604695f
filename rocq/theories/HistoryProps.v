(** * C46 and C47: payment history, filters and queries *)
From Coq Require Import Permutation.
From Verif Require Import Base Core AmountModel ContainerModel PIndexModel StateModel StateSpec StateProofs IfaceModel HistoryModel HistorySpec HistoryProofs.
From Verif Require Import Ser StashProps StockProps ConsignProps.
Local Open Scope N_scope.

Section Reached.
Context {OG : OrdKey GlobalOut} (H : Hashes) (h : list StateCall) (cid : N) (c : MemContract).
Context (Hc : contract_state (state_after H h) cid = Ok c).
Lemma keys_once k : NoDup (map okey (outs_all k c)).
Proof. exact (outs_all_once _ _ _ _ (safter_wf H h) Hc). Qed.
Lemma kinds_fit k : well_typed H h -> forall a, In a (outs_all k c) -> kind_of (oa_state a) = k.
Proof.
  intros T a Ha. apply (outs_all_spec _ _ _ _ _ (safter_wf H h) Hc) in Ha as [Hs _]. apply safter_sound in Hs as (call & Hin & ow & o & Hi & Hr).
  destruct Hr as (ty & ta & no & seal & st & Ht & <- & Hn & _ & _ & -> & _). eapply T; eauto.
Qed.
End Reached.

(** ** C46 *)

(** Rights, data and attachments: the history has one operation for each allocation which was
    issued to us, sent by us to others, or received by us from others, and no other. *)
Theorem C46_each : forall (OG : OrdKey GlobalOut) H h cid c ord fo fw k ops,
  contract_state (state_after H h) cid = Ok c -> (forall s, Permutation s (ord s)) -> k <> KFungible ->
  operations ord k c fo fw = Ok ops ->
  exists dealt, Forall2 (fun p op => reports c (fst p) (snd p) op) dealt ops /\
    lists dealt (fun p => deals fo fw (outs_all k c) (fst p) (oa_witness (snd p)) (snd p)).
Proof. intros OG H h cid c ord fo fw k ops Hc Ho Hk E. eapply operations_each; eauto. eapply keys_once; eauto. Qed.

(** Amounts: one operation for what was issued to us, and at most one for each witness, which
    has the sum of what it sent to others, if it is ours, or of what we received. *)
Theorem C46_sums : forall (OG : OrdKey GlobalOut) H h cid c ord fo fw ops,
  well_typed H h -> contract_state (state_after H h) cid = Ok c -> (forall s, Permutation s (ord s)) ->
  operations ord KFungible c fo fw = Ok ops ->
  exists groups, Forall2 (fun p op => sums_up c (fst (fst p)) (snd (fst p)) (snd p) op) groups ops /\
    NoDup (map (fun p => snd (fst p)) groups) /\
    (forall d w g, In (d, w, g) groups -> g <> [] /\ lists g (deals fo fw (outs_all KFungible c) d w)) /\
    (forall d w a, deals fo fw (outs_all KFungible c) d w a -> exists g, In (d, w, g) groups).
Proof.
  intros OG H h cid c ord fo fw ops T Hc Ho E. eapply operations_sums; eauto; [eapply keys_once; eauto|].
  intros a. eapply kinds_fit; eauto.
Qed.

(** Nothing is two of these. *)
Theorem C46_one_side : forall fo fw l d d' w w' a, deals fo fw l d w a -> deals fo fw l d' w' a -> d = d' /\ w = w'.
Proof.
  intros fo fw l d d' w w' a [Ha Hd] [_ Hd'].
  destruct d, w as [w|], d', w' as [w'|]; try contradiction; cbn in *; unfold issued, sent, received in *.
  all: try (destruct Hd as (E & _), Hd' as (E' & _); rewrite E in E'; try discriminate E'; injection E' as <-; auto; fail).
  - auto.
  - destruct Hd as (E & Ho & _), Hd' as (E' & _ & No). contradiction.
  - destruct Hd as (E & _ & No), Hd' as (E' & Ho & _). contradiction.
Qed.

(** When it panics: an allocation without witness is taken by the filter of witnesses, or the
    amounts to be added are of two types. *)
Theorem C46_panics : forall (OG : OrdKey GlobalOut) H h cid c ord fo fw k,
  well_typed H h -> contract_state (state_after H h) cid = Ok c -> (forall s, Permutation s (ord s)) ->
  (forall e, operations ord k c fo fw <> Err e) /\
  (operations ord k c fo fw = Panic <->
   (exists a, In a (outs_all k c) /\ made fw a /\ oa_witness a = None) \/
   (k = KFungible /\ exists d w a b, deals fo fw (outs_all k c) d w a /\ deals fo fw (outs_all k c) d w b /\
      oo_ty (oa_opout a) <> oo_ty (oa_opout b))).
Proof.
  intros OG H h cid c ord fo fw k T Hc Ho. apply operations_panic; [exact Ho|eapply keys_once; eauto|].
  intros a. eapply kinds_fit; eauto.
Qed.

(** The history is that of amounts, rights, data and attachments; there is one if the filter
    of witnesses takes no allocation without witness and all amounts are of one type. *)
Theorem C46_history_partial : forall (OG : OrdKey GlobalOut) H h cid c ord fo fw,
  well_typed H h -> contract_state (state_after H h) cid = Ok c -> (forall s, Permutation s (ord s)) ->
  (forall o, fw o None = false) ->
  (forall a b, In a (outs_all KFungible c) -> In b (outs_all KFungible c) -> oo_ty (oa_opout a) = oo_ty (oa_opout b)) ->
  exists f r d a, operations ord KFungible c fo fw = Ok f /\ operations ord KDeclarative c fo fw = Ok r /\
    operations ord KStructured c fo fw = Ok d /\ operations ord KAttachment c fo fw = Ok a /\
    history ord c fo fw = Ok (f ++ r ++ d ++ a).
Proof.
  intros OG H h cid c ord fo fw T Hc Ho Hw Ht.
  assert (G : forall k, exists l, operations ord k c fo fw = Ok l).
  { intros k. destruct (C46_panics OG H h cid c ord fo fw k T Hc Ho) as [Ne Np].
    destruct (operations ord k c fo fw) as [l|e|]; [eauto|exfalso; exact (Ne e eq_refl)|]. exfalso.
    destruct (proj1 Np eq_refl) as [(a & Ha & Hm & Ew)|(-> & d & w & a & b & Ha & Hb & N)].
    - unfold made in Hm. rewrite Ew, Hw in Hm. discriminate Hm.
    - apply N, Ht; [apply Ha|apply Hb]. }
  destruct (G KFungible) as [f Ef], (G KDeclarative) as [r Er], (G KStructured) as [d Ed], (G KAttachment) as [a Ea].
  exists f, r, d, a. repeat (split; [assumption|]). unfold history. rewrite Ef, Er, Ed, Ea. reflexivity.
Qed.
Theorem C46_history : forall ord c fo fw ops, history ord c fo fw = Ok ops <->
  exists f r d a, operations ord KFungible c fo fw = Ok f /\ operations ord KDeclarative c fo fw = Ok r /\
    operations ord KStructured c fo fw = Ok d /\ operations ord KAttachment c fo fw = Ok a /\ ops = f ++ r ++ d ++ a.
Proof.
  intros ord c fo fw ops. unfold history. split.
  - intros E. destruct (operations ord KFungible c fo fw) as [f| |]; try discriminate E. cbn [rbind] in E.
    destruct (operations ord KDeclarative c fo fw) as [r| |]; try discriminate E. cbn [rbind] in E.
    destruct (operations ord KStructured c fo fw) as [d| |]; try discriminate E. cbn [rbind] in E.
    destruct (operations ord KAttachment c fo fw) as [a| |]; try discriminate E. cbn [rbind] in E. apply Ok_inj in E.
    exists f, r, d, a. auto 10.
  - intros (f & r & d & a & -> & -> & -> & -> & ->). reflexivity.
Qed.

(** ** C47 *)

Fixpoint should_include_accepts (f : Filter) o w {struct f} : should_include f o w = true <-> accepts f o w.
Proof.
  destruct f as [|f|f|[f|]|o'|l|s|m]; cbn [should_include accepts].
  - tauto.
  - rewrite negb_true_iff, <- not_true_iff_false, should_include_accepts. reflexivity.
  - apply should_include_accepts.
  - apply should_include_accepts.
  - tauto.
  - rewrite keqb_eq. split; auto.
  - rewrite existsb_exists. split; [intros (x & Hx & E); apply keqb_true in E; congruence|]. intros Hx. exists o. split; [exact Hx|apply keqb_refl].
  - apply smem_In.
  - rewrite existsb_exists. split.
    + intros (x & Hx & E). apply keqb_true in E. subst x. unfold mkeys in Hx. apply in_map_iff in Hx as ([o' v] & E & Hx). cbn in E. subst o'. eauto.
    + intros (v & Hx). exists o. split; [exact (in_map fst _ _ Hx)|apply keqb_refl].
Qed.

(** A filter takes exactly what it has to. *)
Theorem C47_filters : forall f o w, should_include f o w = true <-> accepts f o w.
Proof. exact should_include_accepts. Qed.

(** The type a table gives to a name: the first one with the name *)
Definition first_named (l : list (N * N)) (name ty : N) : Prop :=
  exists before after, l = before ++ (ty, name) :: after /\ forall p, In p before -> snd p <> name.
Lemma type_of_first l name ty : type_of l name = Some ty <-> first_named l name ty.
Proof.
  unfold type_of. split.
  - induction l as [|[t n] l IH]; cbn [find]; [discriminate|]. cbn [snd]. destruct (N.eqb_spec n name) as [->|Nn].
    + cbn. intros E. injection E as ->. exists [], l. split; [reflexivity|intros p []].
    + intros E. destruct (IH E) as (b & a & -> & Hb). exists ((t, n) :: b), a. split; [reflexivity|]. intros p [<-|Hp]; [exact Nn|auto].
  - intros (b & a & -> & Hb). induction b as [|[t n] b IH]; cbn [app find snd].
    + rewrite N.eqb_refl. reflexivity.
    + specialize (Hb (t, n) (or_introl eq_refl)) as Hn. cbn in Hn. apply N.eqb_neq in Hn. rewrite Hn. apply IH. intros p Hp. apply Hb. right. exact Hp.
Qed.
Lemma type_of_none l name : type_of l name = None <-> forall p, In p l -> snd p <> name.
Proof.
  unfold type_of. induction l as [|[t n] l IH]; cbn [find snd]; [split; [intros _ p []|reflexivity]|].
  destruct (N.eqb_spec n name) as [->|Nn]; cbn.
  - split; [discriminate|]. intros Hp. exfalso. exact (Hp (t, name) (or_introl eq_refl) eq_refl).
  - rewrite IH. split; [intros Hp p [<-|Hi]; [exact Nn|auto]|auto].
Qed.

(** Queries by name: rights, amounts, data and attachments *)
Definition query (k : StateKind) : ContractQuery -> N -> AFilter -> result ContractError (list Owned) :=
  match k with KDeclarative => q_rights | KFungible => q_fungible | KStructured => q_data | KAttachment => q_attachments end.
Lemma query_extract k q name f : query k q name f = extract_state q (outs_all k (cq_state q)) name f.
Proof. destruct k; reflexivity. Qed.

Lemma given_iff a x : given a x <-> x = transmute a.
Proof.
  destruct x as [o s y w]. unfold given, transmute. cbn. split.
  - intros (-> & -> & Hs & ->). f_equal. destruct (oa_state a); exact Hs.
  - intros E. injection E as -> -> -> ->. repeat split. destruct (oa_state a); reflexivity.
Qed.
Lemma given_map {A} (f : A -> OutAssign) g l : Forall2 (fun p x => given (f p) x) g l <-> l = map (fun p => transmute (f p)) g.
Proof.
  split.
  - induction 1 as [|a x g l Ha _ IH]; [reflexivity|]. apply given_iff in Ha. cbn [map]. congruence.
  - intros ->. induction g as [|a g IH]; [constructor|]. cbn [map]. constructor; [apply given_iff; reflexivity|exact IH].
Qed.

(** They give the allocations of the type with the name which the filter takes, each once; an
    unknown name is an error. *)
Theorem C47_named : forall (OG : OrdKey GlobalOut) H h cid q k name f,
  contract_state (state_after H h) cid = Ok (cq_state q) ->
  query k q name f <> Panic /\
  (forall e, query k q name f = Err e <-> e = FieldNameUnknown name /\ forall p, In p (fm_assigns (cq_iface q)) -> snd p <> name) /\
  (forall l, query k q name f = Ok l -> exists ty g, first_named (fm_assigns (cq_iface q)) name ty /\ Forall2 given g l /\
     lists g (fun a => In a (outs_all k (cq_state q)) /\ oo_ty (oa_opout a) = ty /\ f (os_outpoint (oa_seal a)) (oa_witness a) = true)).
Proof.
  intros OG H h cid q k name f Hc. rewrite query_extract. unfold extract_state, extract_unfiltered.
  pose proof (type_of_none (fm_assigns (cq_iface q)) name) as Hn. pose proof (type_of_first (fm_assigns (cq_iface q)) name) as Hf.
  destruct (type_of (fm_assigns (cq_iface q)) name) as [ty|]; cbn [ok_or rbind].
  - split; [discriminate|]. split.
    + intros e. split; [discriminate|]. intros [_ Hx]. apply Hn in Hx. discriminate Hx.
    + intros l E. apply Ok_inj in E. subst l. exists ty, (filter (passes f) (filter (fun a => oo_ty (oa_opout a) =? ty) (outs_all k (cq_state q)))).
      split; [apply Hf; reflexivity|]. split.
      * apply (given_map (fun a => a)). induction (filter _ (outs_all k (cq_state q))) as [|a l IH]; [reflexivity|]. cbn [map filter]. unfold passes at 1. cbn.
        destruct (f (os_outpoint (oa_seal a)) (oa_witness a)); cbn [map]; rewrite IH; reflexivity.
      * split.
        -- apply NoDup_filter, NoDup_filter. apply (NoDup_map_inv okey). eapply keys_once; eauto.
        -- intros a. rewrite !filter_In, N.eqb_eq. unfold passes. tauto.
  - split; [discriminate|]. split; [|discriminate]. intros e. split.
    + intros E. injection E as <-. split; [reflexivity|]. apply Hn. reflexivity.
    + intros [-> _]. reflexivity.
Qed.

(** All allocations which the filter takes, each once, with the kind of their state *)
Theorem C47_allocations : forall (OG : OrdKey GlobalOut) H h cid q f,
  contract_state (state_after H h) cid = Ok (cq_state q) ->
  exists g, Forall2 (fun p x => given (snd p) x) g (q_allocations q f) /\
    lists g (fun p => In (snd p) (outs_all (fst p) (cq_state q)) /\ f (os_outpoint (oa_seal (snd p))) (oa_witness (snd p)) = true).
Proof.
  intros OG H h cid q f Hc. set (part := fun k => map (fun a => (k, a)) (filter (passes f) (outs_all k (cq_state q)))).
  exists (part KDeclarative ++ part KFungible ++ part KStructured ++ part KAttachment). split.
  { apply given_map. unfold q_allocations. rewrite !map_app. unfold part. rewrite !map_map. reflexivity. }
  assert (Hp : forall k p, In p (part k) <-> fst p = k /\ In (snd p) (outs_all (fst p) (cq_state q)) /\ f (os_outpoint (oa_seal (snd p))) (oa_witness (snd p)) = true).
  { intros k [k' a]. unfold part. rewrite in_map_iff. cbn [fst snd]. split.
    - intros (b & E & Hb). injection E as <- <-. apply filter_In in Hb. unfold passes in Hb. tauto.
    - intros (-> & Ha & Hf). exists a. split; [reflexivity|]. apply filter_In. auto. }
  assert (Hn : forall k, NoDup (part k)).
  { intros k. unfold part. apply FinFun.Injective_map_NoDup; [intros x y E; congruence|]. apply NoDup_filter. apply (NoDup_map_inv okey). eapply keys_once; eauto. }
  split.
  - repeat (apply NoDup_app_intro; [apply Hn| |intros p Hi Hj; rewrite ?in_app_iff, ?Hp in Hj; apply Hp in Hi; destruct Hi as [Ei _]; rewrite Ei in Hj; decompose [or and] Hj; discriminate]).
    apply Hn.
  - intros p. rewrite !in_app_iff, !Hp. split; [intros [[_ Hx]|[[_ Hx]|[[_ Hx]|[_ Hx]]]]; exact Hx|]. intros Hx. destruct (fst p); tauto.
Qed.

(** Allocations at an outpoint *)
Theorem C47_outpoint : forall q o x, In x (q_outpoint q o) <->
  exists k a, In a (outs_all k (cq_state q)) /\ os_outpoint (oa_seal a) = o /\ given a x.
Proof.
  intros q o x. unfold q_outpoint, q_allocations. rewrite !in_app_iff, !in_map_iff.
  assert (Hp : forall a k, In a (filter (passes (should_include (FOutpoint o))) (outs_all k (cq_state q))) <-> In a (outs_all k (cq_state q)) /\ os_outpoint (oa_seal a) = o).
  { intros a k. rewrite filter_In. unfold passes. cbn. rewrite keqb_eq. split; intros [H1 H2]; auto. }
  setoid_rewrite Hp. setoid_rewrite given_iff. split.
  - intros [(a & <- & Ha & Eo)|[(a & <- & Ha & Eo)|[(a & <- & Ha & Eo)|(a & <- & Ha & Eo)]]]; eauto 10.
  - intros (k & a & Ha & Eo & ->). destruct k; eauto 10.
Qed.

(** Global state: the values of the named type, newest first, decoded by the type in the
    schema; an unknown name is an error, and the rest is a corrupted contract. *)
Theorem C47_global : forall q name,
  (forall e, q_global q name = Err e <-> e = FieldNameUnknown name /\ forall p, In p (fm_globals (cq_iface q)) -> snd p <> name) /\
  (forall l, q_global q name = Ok l <-> exists ty sc vals, first_named (fm_globals (cq_iface q)) name ty /\
     mget ty (fs_globals (cq_schema q)) = Some sc /\ global_values (cq_state q) ty = Some vals /\
     Forall2 (fun p v => cq_decodes q (gs_sem sc) (snd p) = Some v) vals l).
Proof.
  intros q name. unfold q_global.
  pose proof (type_of_none (fm_globals (cq_iface q)) name) as Hn. pose proof (type_of_first (fm_globals (cq_iface q)) name) as Hf.
  destruct (type_of (fm_globals (cq_iface q)) name) as [ty|]; cbn [ok_or rbind].
  2:{ split.
      - intros e. split; [intros E; injection E as <-; split; [reflexivity|apply Hn; reflexivity]|intros [-> _]; reflexivity].
      - intros l. split; [discriminate|]. intros (ty & sc & vals & Hx & _). apply Hf in Hx. discriminate Hx. }
  assert (Hty : forall ty', first_named (fm_globals (cq_iface q)) name ty' -> ty' = ty) by (intros ty' Hx; apply Hf in Hx; congruence).
  assert (Hno : ~ forall p, In p (fm_globals (cq_iface q)) -> snd p <> name) by (intros Hx; apply Hn in Hx; discriminate Hx).
  assert (Hfirst : first_named (fm_globals (cq_iface q)) name ty) by (apply Hf; reflexivity).
  destruct (mget ty (fs_globals (cq_schema q))) as [sc|] eqn:Es; cbn [expect rbind].
  2:{ split; [intros e; split; [discriminate|intros [_ Hx]; contradiction]|]. intros l. split; [discriminate|].
      intros (ty' & sc & vals & Hx & E & _). rewrite (Hty _ Hx) in E. congruence. }
  destruct (global_values (cq_state q) ty) as [vals|] eqn:Ev; cbn [expect rbind].
  2:{ split; [intros e; split; [discriminate|intros [_ Hx]; contradiction]|]. intros l. split; [discriminate|].
      intros (ty' & sc' & vals & Hx & _ & E & _). rewrite (Hty _ Hx) in E. congruence. }
  assert (G : forall acc, (forall e, rfold (fun acc p => let! v := expect (cq_decodes q (gs_sem sc) (snd p)) in Ok (acc ++ [v])) acc vals <> (Err e : result ContractError _)) /\
    forall l, rfold (fun acc p => let! v := expect (cq_decodes q (gs_sem sc) (snd p)) in Ok (acc ++ [v])) acc vals = (Ok l : result ContractError _) <->
      exists r, Forall2 (fun p v => cq_decodes q (gs_sem sc) (snd p) = Some v) vals r /\ l = acc ++ r).
  { clear. induction vals as [|p vals IH]; intros acc; cbn [rfold].
    - split; [discriminate|]. intros l. split.
      + intros E. apply Ok_inj in E. subst. exists []. split; [constructor|symmetry; apply app_nil_r].
      + intros (r & F & ->). inversion F; subst. rewrite app_nil_r. reflexivity.
    - destruct (cq_decodes q (gs_sem sc) (snd p)) as [v|] eqn:E; cbn [expect rbind].
      + destruct (IH (acc ++ [v])) as [I1 I2]. split; [exact I1|]. intros l. rewrite I2. split.
        * intros (r & F & ->). exists (v :: r). split; [constructor; assumption|]. rewrite <- app_assoc. reflexivity.
        * intros (r & F & ->). inversion F as [|? v' ? r' Ev F']; subst. exists r'. split; [exact F'|]. rewrite E in Ev. injection Ev as <-. rewrite <- app_assoc. reflexivity.
      + split; [discriminate|]. intros l. split; [discriminate|]. intros (r & F & ->). inversion F as [|? v' ? r' Ev F']; subst. congruence. }
  destruct (G []) as [G1 G2]. split; [intros e; split; [intros E; exfalso; exact (G1 e E)|intros [_ Hx]; contradiction]|].
  intros l. rewrite G2. split.
  - intros (r & F & ->). exists ty, sc, vals. auto.
  - intros (ty' & sc' & vals' & Hx & E1 & E2 & F). rewrite (Hty _ Hx) in E1, E2. rewrite Es in E1. rewrite Ev in E2. injection E1 as <-. injection E2 as <-. eauto.
Qed.

(** ** Example: issued, sent with change, received *)
Definition hx_out (v : N) : Outpoint := {| xo_layer := Bitcoin; xo_txid := 100; xo_vout := v |}.
Definition hx_amounts (ty : N) (l : list Assign) : N * TypedAssigns := (ty, {| ta_kind := KFungible; ta_list := l |}).
Definition hx_amount (vout v : N) : Assign := Revealed (cn_seal 100 vout) (RAmount v 1 2).
Definition hx_op (k : OpKind) (head : N) (l : list (N * TypedAssigns)) : Operation :=
  {| op_kind := k; op_head := head; op_contract := 1; op_ty := 5; op_nonce := 0; op_meta := []; op_globals := []; op_inputs := [];
     op_redeemed := []; op_assigns := l; op_valencies := [] |}.
(** The first outputs 0 to 9 are ours. *)
Definition hx_ours : AFilter := fun o _ => xo_vout o <? 10.
Definition hx_made (w : N) : AFilter := fun _ x => match x with Some i => w_txid i =? w | None => false end.
Definition hx_right (vout : N) : N * TypedAssigns := (6, {| ta_kind := KDeclarative; ta_list := [Revealed (cn_seal 100 vout) RVoid] |}).
(** Issued: 30 and 12 to us, 5 to others.  Witness 8: 21 and 9 to others, 4 to us.  Witness 9: 7 to us and 2 to others. *)
Definition hx_calls (ty : N) : list StateCall :=
  [StConsignment {| c_transfer := true; c_terminals := [];
     c_genesis := hx_op OpGenesis 1 [hx_amounts 4 [hx_amount 0 30; hx_amount 1 12; hx_amount 10 5]; hx_right 2];
     c_extensions := []; c_schema := {| sch_id := 5; sch_globals := []; sch_libs := []; sch_types := [] |};
     c_ifaces := []; c_supplements := [];
     c_bundles := [cn_wb 8 (cn_bundle bit_hashes [hx_op OpTransition 2 [hx_amounts 4 [hx_amount 11 21; hx_amount 12 9; hx_amount 3 4]; hx_right 13]]);
                   cn_wb 9 (cn_bundle bit_hashes [hx_op OpTransition 3 [hx_amounts ty [hx_amount 5 7; hx_amount 14 2]; hx_amounts 7 [hx_amount 6 1]]])];
     c_types := []; c_scripts := []; c_attachments := []; c_signatures := [] |} yes_witness].
Definition hx_genesis : Operation := hx_op OpGenesis 1 [hx_amounts 4 [hx_amount 0 30; hx_amount 1 12; hx_amount 10 5]; hx_right 2].
Definition hx_cid : N := op_id bit_hashes hx_genesis.
Definition hx_wit (t : N) : option WitnessInfo := Some {| wi_id := {| w_layer := Bitcoin; w_txid := t |}; wi_ord := Tentative |}.

Definition op_typedb (o : Operation) : bool :=
  forallb (fun p => forallb (fun a => match a with Revealed _ st => kind_eqb (kind_of st) (ta_kind (snd p)) | _ => true end) (ta_list (snd p))) (op_assigns o).
Definition call_typedb (call : StateCall) : bool :=
  match call with
  | StConsignment c _ => forallb op_typedb (c_genesis c :: c_extensions c ++ flat_map wb_known_transitions (c_bundles c))
  | StBundle _ b _ _ => forallb op_typedb (mvals (b_known b))
  | StUpdate _ _ => true
  end.
Lemma well_typed_of H h : forallb call_typedb h = true -> well_typed H h.
Proof.
  intros E call cid ow o ty ta no seal st Hc Hi Ht Hn. rewrite forallb_forall in E. specialize (E call Hc).
  assert (Ho : op_typedb o = true).
  { destruct call as [c r|cid' b w r|r after]; cbn [call_typedb imports] in E, Hi; [| |destruct Hi].
    - rewrite forallb_forall in E. apply E. destruct Hi as [_ [[_ ->]|[(wb & Hw & Hb & _)|(w & He & _)]]]; [left; reflexivity| |].
      + right. apply in_or_app. right. apply in_flat_map. eauto.
      + right. apply in_or_app. left. exact He.
    - rewrite forallb_forall in E. apply E. apply Hi. }
  unfold op_typedb in Ho. rewrite forallb_forall in Ho. specialize (Ho _ Ht). cbv beta in Ho. rewrite forallb_forall in Ho.
  apply nth_error_In in Hn. specialize (Ho _ Hn). cbn in Ho. destruct (kind_of st), (ta_kind ta); try discriminate Ho; reflexivity.
Qed.
Definition hx_brief (o : ContractOp) := (co_direction o, co_state o, co_to o, co_witness o).
Definition hx_seal (v : N) : OutSeal := {| os_layer := Bitcoin; os_method := TapretFirst; os_txid := 100; os_vout := v |}.

(** With one type of amounts in each group: 42 issued, 30 sent by witness 8, seven or eight
    received by witness 9 *)
Example C46_nonvacuous : forall OG : OrdKey GlobalOut, exists c ops,
  well_typed bit_hashes (hx_calls 7) /\ contract_state (state_after bit_hashes (hx_calls 7)) hx_cid = Ok c /\
  history (fun s => rev s) c hx_ours (hx_made 8) = Ok ops /\
  map hx_brief ops =
    [(Issued, AlAmount 42, [hx_seal 0; hx_seal 1], None);
     (Sent, AlAmount 30, [hx_seal 11; hx_seal 12], hx_wit 8);
     (Received, AlAmount 8, [hx_seal 5; hx_seal 6], hx_wit 9);
     (Issued, AlVoid, [hx_seal 2], None);
     (Sent, AlVoid, [hx_seal 13], hx_wit 8)].
Proof.
  intros OG. destruct (contract_state (state_after bit_hashes (hx_calls 7)) hx_cid) as [c| |] eqn:E;
    [|exfalso; vm_compute in E; discriminate E|exfalso; vm_compute in E; discriminate E].
  vm_compute in E. injection E as <-. eexists _, _. split; [apply well_typed_of; vm_compute; reflexivity|].
  split; [reflexivity|]. split; vm_compute; reflexivity.
Qed.

(** ** What does not hold *)

(** Amounts of two types received in one transaction, or issued: the history panics. *)
Theorem C46_types_refuted : forall OG : OrdKey GlobalOut, exists h c,
  well_typed bit_hashes h /\ sall_succeed bit_hashes ms_empty h /\ contract_state (state_after bit_hashes h) hx_cid = Ok c /\
  (forall o, hx_made 8 o None = false) /\ history (fun s => s) c hx_ours (hx_made 8) = Panic.
Proof.
  intros OG. exists (hx_calls 4). destruct (contract_state (state_after bit_hashes (hx_calls 4)) hx_cid) as [c| |] eqn:E;
    [|exfalso; vm_compute in E; discriminate E|exfalso; vm_compute in E; discriminate E].
  vm_compute in E. injection E as <-. eexists. split; [apply well_typed_of; vm_compute; reflexivity|].
  split; [split; [|exact I]; eexists; vm_compute; reflexivity|]. split; [reflexivity|]. split; [reflexivity|]. vm_compute. reflexivity.
Qed.

(** The filters of filter.rs which look only at outpoints panic as filters of witnesses as
    soon as they take an issued allocation, the one which takes all among them. *)
Theorem C46_include_all_refuted : forall OG : OrdKey GlobalOut, exists h c,
  well_typed bit_hashes h /\ sall_succeed bit_hashes ms_empty h /\ contract_state (state_after bit_hashes h) hx_cid = Ok c /\
  history (fun s => s) c hx_ours (should_include FIncludeAll) = Panic.
Proof.
  intros OG. exists (hx_calls 7). destruct (contract_state (state_after bit_hashes (hx_calls 7)) hx_cid) as [c| |] eqn:E;
    [|exfalso; vm_compute in E; discriminate E|exfalso; vm_compute in E; discriminate E].
  vm_compute in E. injection E as <-. eexists. split; [apply well_typed_of; vm_compute; reflexivity|].
  split; [split; [|exact I]; eexists; vm_compute; reflexivity|]. split; [reflexivity|]. vm_compute. reflexivity.
Qed.

(** ** Example: queries *)
Definition hx_impl : FullImpl :=
  {| fm_schema := 5; fm_iface := 1; fm_timestamp := 0%Z; fm_metadata := []; fm_globals := []; fm_assigns := [(4, 40); (6, 60); (7, 40)];
     fm_valencies := []; fm_transitions := []; fm_extensions := []; fm_errors := [] |}.
Definition hx_query (c : MemContract) (schema : FullSchema) : ContractQuery :=
  {| cq_state := c; cq_schema := schema; cq_iface := hx_impl; cq_decodes := fun _ v => Some v |}.
Example C47_nonvacuous : forall (OG : OrdKey GlobalOut) schema, exists c l,
  contract_state (state_after bit_hashes (hx_calls 7)) hx_cid = Ok c /\
  q_fungible (hx_query c schema) 40 (should_include (FExclude (FList [hx_out 0; hx_out 3]))) = Ok l /\
  map ow_state l = [AlAmount 12; AlAmount 5; AlAmount 21; AlAmount 9] /\
  q_rights (hx_query c schema) 61 (should_include FIncludeAll) = Err (FieldNameUnknown 61) /\
  map ow_state (q_allocations (hx_query c schema) (should_include (FOption (Some (FMap [(hx_out 2, 1); (hx_out 5, 1)]))))) = [AlVoid; AlAmount 7].
Proof.
  intros OG schema. destruct (contract_state (state_after bit_hashes (hx_calls 7)) hx_cid) as [c| |] eqn:E;
    [|exfalso; vm_compute in E; discriminate E|exfalso; vm_compute in E; discriminate E].
  vm_compute in E. injection E as <-. eexists _, _. split; [reflexivity|].
  repeat (split; [vm_compute; reflexivity|]). vm_compute. reflexivity.
Qed.

(** ** Example: two global values, one of them of a mined witness *)
Definition hx_go (op : N) (w : OpWitness) : GlobalOut := {| go_op := op; go_nonce := 0; go_index := 0; go_witness := w |}.
Definition hx_wid : WitnessId := {| w_layer := Bitcoin; w_txid := 8 |}.
Definition hx_global : MemContract :=
  {| mc_filter := [(hx_wid, Tentative)];
     mc_state := {| cs_schema := 5; cs_contract := 1;
       cs_global := [(2, {| mg_known := [(hx_go 1 OWGenesis, 70); (hx_go 2 (OWTransition hx_wid 3), 71)]; mg_limit := 5 |})];
       cs_rights := []; cs_fungibles := []; cs_data := []; cs_attach := [] |} |}.
Definition hx_op_schema : OpSchema :=
  {| os_metadata := []; os_globals := []; os_inputs := []; os_assigns := []; os_redeems := []; os_valencies := [] |}.
Definition hx_schema : FullSchema :=
  {| fs_meta := []; fs_globals := [(2, {| gs_sem := 9; gs_max := 5 |})]; fs_owned := []; fs_valencies := [];
     fs_genesis := hx_op_schema; fs_transitions := []; fs_extensions := [] |}.
Definition hx_global_query : ContractQuery :=
  {| cq_state := hx_global; cq_schema := hx_schema;
     cq_iface := {| fm_schema := 5; fm_iface := 1; fm_timestamp := 0%Z; fm_metadata := []; fm_globals := [(2, 20)]; fm_assigns := [];
                    fm_valencies := []; fm_transitions := []; fm_extensions := []; fm_errors := [] |};
     cq_decodes := fun sem v => if sem =? 9 then Some (v + 1) else None |}.
Example C47_global_nonvacuous :
  q_global hx_global_query 20 = Ok [72; 71] /\ q_global hx_global_query 21 = Err (FieldNameUnknown 21).
Proof. split; vm_compute; reflexivity. Qed.

Print Assumptions C46_each.
Print Assumptions C46_sums.
Print Assumptions C46_one_side.
Print Assumptions C46_panics.
Print Assumptions C46_history_partial.
Print Assumptions C46_history.
Print Assumptions C46_types_refuted.
Print Assumptions C46_include_all_refuted.
Print Assumptions C46_nonvacuous.
Print Assumptions C47_filters.
Print Assumptions C47_named.
Print Assumptions C47_allocations.
Print Assumptions C47_outpoint.
Print Assumptions C47_global.
Print Assumptions C47_nonvacuous.
Print Assumptions C47_global_nonvacuous.
