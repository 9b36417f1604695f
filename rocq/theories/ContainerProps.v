(** C15, C16, C18, C19, C54, C55 and the container part of C17 *)
From Verif Require Import Base.
From Verif Require Import Core HashExists MergeModel MergeSpec MergeProofs ContainerModel ContainerSpec ContainerProofs.
Local Open Scope N_scope.

(** ** C15 *)
(** The full property: two views of one witness can always be merged. *)
Definition witness_views_merge (a b : XPubWitness) : Prop :=
  witness_id a = witness_id b ->
  exists r, merge_xpub a b = Ok r /\ witness_id r = witness_id a /\
            ((exists t, pw_tx (xw_pub a) = Some t \/ pw_tx (xw_pub b) = Some t) ->
             exists t, pw_tx (xw_pub r) = Some t).

(** It fails when the full transaction comes first. *)
Theorem C15_merge_refuted : exists a b, ~ witness_views_merge a b /\ witness_views_merge b a.
Proof.
  exists {| xw_layer := Bitcoin; xw_pub := PwTx {| tx_txid := 5; tx_body := 7 |} |},
         {| xw_layer := Bitcoin; xw_pub := PwTxid 5 |}.
  split.
  - intros K. destruct (K eq_refl) as (r & Er & _). discriminate.
  - intros _. eexists. split; [reflexivity|]. split; [reflexivity|]. intros _. eexists. reflexivity.
Qed.

(** What merging does, in all cases.  Missing for C15: the case of a transaction
    merged with a bare id. *)
Theorem C15_merge_partial : forall a b,
  match pw_tx (xw_pub a), pw_tx (xw_pub b) with
  | Some _, None => exists e, merge_xpub a b = Err e
  | x, y =>
      if keqb (witness_id a) (witness_id b)
      then exists r, merge_xpub a b = Ok r /\ witness_id r = witness_id a /\
                     pw_tx (xw_pub r) = match x with Some t => Some t | None => y end
      else exists e, merge_xpub a b = Err e
  end.
Proof.
  intros [la pa] [lb pb]. cbn [xw_pub].
  assert (Kw : forall l1 l2 t1 t2, keqb {| w_layer := l1; w_txid := t1 |} {| w_layer := l2; w_txid := t2 |}
     = keqb l1 l2 && (t1 =? t2)).
  { intros. destruct (keqb_spec l1 l2) as [->|Nl]; cbn [andb].
    - destruct (N.eqb_spec t1 t2) as [->|Nt]; [apply keqb_refl|]. apply keqb_neq. congruence.
    - apply keqb_neq. congruence. }
  unfold witness_id. cbn [xw_layer xw_pub]. rewrite Kw. unfold merge_xpub. cbn [xw_layer xw_pub].
  destruct pa as [ta|[ia ba]], pb as [tb|[ib bb]]; cbn [pw_tx pw_txid tx_txid].
  - destruct la, lb; cbn [keqb cmp andb]; try (eexists; reflexivity);
      cbn; destruct (N.eqb_spec ta tb) as [->|]; cbn; try (eexists; reflexivity);
      eexists; split; reflexivity || (split; reflexivity).
  - destruct la, lb; cbn; try (eexists; reflexivity);
      destruct (N.eqb_spec ta ib) as [->|]; cbn; try (eexists; reflexivity);
      eexists; split; reflexivity || (split; reflexivity).
  - destruct la, lb; cbn; eexists; reflexivity.
  - destruct la, lb; cbn; try (eexists; reflexivity);
      destruct (N.eqb_spec ia ib) as [->|]; cbn; try (eexists; reflexivity);
      eexists; split; reflexivity || (split; reflexivity).
Qed.

(** A rejected pair is reported with the two ids in the order given, different chains
    as such. *)
Theorem C15_errors : forall a b e, merge_xpub a b = Err e ->
  e = if keqb (xw_layer a) (xw_layer b)
      then TxidMismatch (pw_txid (xw_pub a)) (pw_txid (xw_pub b))
      else match xw_layer a with
           | Bitcoin => ChainMismatch (pw_txid (xw_pub a)) (pw_txid (xw_pub b))
           | Liquid => ChainMismatch (pw_txid (xw_pub b)) (pw_txid (xw_pub a))
           end.
Proof.
  intros [la pa] [lb pb] e. unfold merge_xpub. cbn [xw_layer xw_pub].
  assert (G : forall l, rmap (fun p => {| xw_layer := l; xw_pub := p |}) (merge_pub pa pb) = Err e ->
              e = TxidMismatch (pw_txid pa) (pw_txid pb)).
  { intros l. destruct pa as [ta|[ia ba]], pb as [tb|[ib bb]]; cbn;
      repeat match goal with |- context [?x =? ?y] => destruct (x =? y) end; cbn; intros [= <-]; reflexivity. }
  destruct la, lb; cbn; try apply G; intros [= <-]; reflexivity.
Qed.

Example C15_witness : exists a b, a <> b /\ witness_id a = witness_id b /\
  exists r, merge_xpub a b = Ok r /\ pw_tx (xw_pub r) = Some {| tx_txid := 5; tx_body := 7 |}.
Proof.
  exists {| xw_layer := Liquid; xw_pub := PwTxid 5 |},
         {| xw_layer := Liquid; xw_pub := PwTx {| tx_txid := 5; tx_body := 7 |} |}.
  split; [discriminate|]. split; [reflexivity|]. eexists. split; reflexivity.
Qed.

Print Assumptions C15_merge_refuted.
Print Assumptions C15_merge_partial.
Print Assumptions C15_errors.

(** ** C16 *)
(** Merging succeeds exactly if anchors of the same kind belong together ... *)
Theorem C16_merge_succeeds_iff : forall a b,
  (exists r, merge_anchors a b = Ok r) <->
  compatible_opt (tapret_of a) (tapret_of b) /\ compatible_opt (opret_of a) (opret_of b).
Proof.
  intros a b. destruct (merge_anchors_spec a b) as [(Ct & Co & r & Er & _)|(N & e & Ee)].
  - split; [auto|]. intros _. eauto.
  - split; [intros (r & Er); congruence|]. intros C. contradiction.
Qed.

(** ... keeps both kinds ... *)
Theorem C16_merge_keeps_methods : forall a b r, merge_anchors a b = Ok r ->
  has_tapret r = (has_tapret a || has_tapret b)%bool /\ has_opret r = (has_opret a || has_opret b)%bool.
Proof.
  intros a b r E.
  assert (T : forall s, has_tapret s = match tapret_of s with Some _ => true | None => false end)
    by (intros []; reflexivity).
  assert (O : forall s, has_opret s = match opret_of s with Some _ => true | None => false end)
    by (intros []; reflexivity).
  rewrite !T, !O. destruct (merge_anchors_spec a b) as [(Ct & Co & r' & Er & Jt & Jo)|(N & e & Ee)]; [|congruence].
  rewrite E in Er. apply Ok_inj in Er. subst r'.
  split.
  - destruct (tapret_of a), (tapret_of b), (tapret_of r); cbn in Jt |- *; tauto.
  - destruct (opret_of a), (opret_of b), (opret_of r); cbn in Jo |- *; tauto.
Qed.

(** ... with everything either side knows about each of them; ... *)
Theorem C16_merge_keeps_messages : forall a b r, merge_anchors a b = Ok r ->
  agree (tapret_of a) (tapret_of b) -> agree (opret_of a) (opret_of b) ->
  joined (tapret_of a) (tapret_of b) (tapret_of r) /\ joined (opret_of a) (opret_of b) (opret_of r).
Proof.
  intros a b r E At Ao. destruct (merge_anchors_spec a b) as [(Ct & Co & r' & Er & Jt & Jo)|(N & e & Ee)]; [|congruence].
  rewrite E in Er. apply Ok_inj in Er. subst r'.
  assert (G : forall x y z, compatible_opt x y -> agree x y -> joined y x z -> joined x y z).
  { intros [x|] [y|] [z|] C A J; cbn in *; try tauto; try congruence. destruct C as [C1 C2], J as (J1 & J2 & J3).
    repeat split; [congruence..|]. intros p. rewrite J3.
    destruct (mget p (an_known x)) as [m|] eqn:Ex, (mget p (an_known y)) as [n|] eqn:Ey; try reflexivity.
    f_equal. symmetry. eapply A; eassumption. }
  split.
  - destruct (tapret_of a), (tapret_of b); try exact Jt. destruct Jt as [J|J]; [exact J|]. apply G; assumption.
  - destruct (opret_of a), (opret_of b); try exact Jo. destruct Jo as [J|J]; [exact J|]. apply G; assumption.
Qed.

(** ... and is idempotent. *)
Theorem C16_merge_idempotent : forall a, merge_anchors a a = Ok a.
Proof.
  intros [t|o|t o]; cbn [merge_anchors]; rewrite ?merge_anchor_idem; reflexivity.
Qed.

(** Reported bundle ids, exactly: those the opret anchor knows, and those the tapret
    anchor knows for protocols the opret anchor does not know. *)
Theorem C16_known_bundle_ids_partial : forall s id, anchor_wf s ->
  In id (known_bundle_ids s) <->
  (exists p o, opret_of s = Some o /\ mget p (an_known o) = Some id) \/
  (exists p t, tapret_of s = Some t /\ mget p (an_known t) = Some id /\
               forall o, opret_of s = Some o -> mget p (an_known o) = None).
Proof.
  intros s id Hw. rewrite known_bundle_ids_spec by exact Hw. unfold reports.
  destruct s as [t|o|t o]; cbn [opret_of tapret_of]; split.
  - intros (p & E). right. exists p, t. repeat split; [exact E|]. discriminate.
  - intros [(p & o & E & _)|(p & t' & [= <-] & E & _)]; [discriminate|]. eauto.
  - intros (p & E). left. eauto.
  - intros [(p & o' & [= <-] & E)|(p & t' & E & _)]; [eauto|discriminate].
  - intros (p & [E|[E1 E2]]); [left; eauto|]. right. exists p, t. repeat split; [exact E2|].
    intros o' [= <-]. exact E1.
  - intros [(p & o' & [= <-] & E)|(p & t' & [= <-] & E & Hn)]; exists p; [left; exact E|].
    right. split; [apply Hn; reflexivity|exact E].
Qed.

(** So the ids reported for a merged set need not contain those of each side: a
    contract with a bundle under each closing method loses the tapret one. *)
Theorem C16_known_bundle_ids_refuted : exists a b r id,
  anchor_wf a /\ anchor_wf b /\ merge_anchors a b = Ok r /\
  In id (known_bundle_ids a) /\ ~ In id (known_bundle_ids r).
Proof.
  exists (ASTapret {| an_root := 1; an_known := [(9, 100)]; an_dbc := 0 |}),
         (ASOpret {| an_root := 2; an_known := [(9, 200)]; an_dbc := 0 |}).
  eexists. exists 100.
  split; [intros x [[= <-]|[=]]; repeat constructor|].
  split; [intros x [[=]|[= <-]]; repeat constructor|].
  split; [reflexivity|]. split; [left; reflexivity|]. cbv. intros [E|[]]. discriminate.
Qed.

(** They do if no contract has different bundles under the two methods. *)
Theorem C16_known_bundle_ids_kept_partial : forall a b r,
  anchor_wf a -> anchor_wf b -> anchor_wf r -> merge_anchors a b = Ok r ->
  agree (tapret_of a) (tapret_of b) -> agree (opret_of a) (opret_of b) ->
  agree (tapret_of r) (opret_of r) ->
  forall id, In id (known_bundle_ids a) \/ In id (known_bundle_ids b) -> In id (known_bundle_ids r).
Proof.
  intros a b r Ha Hb Hr Em At Ao Ar id Hid.
  destruct (C16_merge_keeps_messages a b r Em At Ao) as [Jt Jo].
  assert (Hk : (exists p o, opret_of r = Some o /\ mget p (an_known o) = Some id) \/
               (exists p t, tapret_of r = Some t /\ mget p (an_known t) = Some id)).
  { assert (G : forall x y z p m, joined x y z -> agree x y ->
       (exists u, x = Some u /\ mget p (an_known u) = Some m) \/
       (exists u, y = Some u /\ mget p (an_known u) = Some m) ->
       exists w, z = Some w /\ mget p (an_known w) = Some m).
    { intros [x|] [y|] [z|] p m J A [(u & Eu & E)|(u & Eu & E)]; cbn in J; try discriminate; try contradiction;
        injection Eu as ->; try (subst; eexists; split; [reflexivity|exact E]).
      - destruct J as (_ & _ & J). exists z. split; [reflexivity|]. rewrite J, E. reflexivity.
      - destruct J as (_ & _ & J). exists z. split; [reflexivity|]. rewrite J, E.
        destruct (mget p (an_known x)) eqn:Ex; [|reflexivity]. f_equal. eapply A; eassumption. }
    rewrite !C16_known_bundle_ids_partial in Hid by assumption.
    destruct Hid as [[(p & o & E & K)|(p & t & E & K & _)]|[(p & o & E & K)|(p & t & E & K & _)]].
    - left. destruct (G _ _ _ p id Jo Ao) as (w & W1 & W2); [left; eauto|]. eauto.
    - right. destruct (G _ _ _ p id Jt At) as (w & W1 & W2); [left; eauto|]. eauto.
    - left. destruct (G _ _ _ p id Jo Ao) as (w & W1 & W2); [right; eauto|]. eauto.
    - right. destruct (G _ _ _ p id Jt At) as (w & W1 & W2); [right; eauto|]. eauto. }
  apply C16_known_bundle_ids_partial; [exact Hr|].
  destruct Hk as [Hk|(p & t & E & K)]; [left; exact Hk|].
  destruct (opret_of r) as [o|] eqn:Eo.
  - destruct (mget p (an_known o)) as [m|] eqn:Em'.
    + left. exists p, o. split; [reflexivity|]. rewrite Em'. f_equal. symmetry.
      rewrite E in Ar. eapply Ar; eassumption.
    + right. exists p, t. repeat split; [exact E|exact K|]. intros o' [= <-]. exact Em'.
  - right. exists p, t. repeat split; [exact E|exact K|]. discriminate.
Qed.

Example C16_witness :
  let t := {| an_root := 1; an_known := [(7, 100)]; an_dbc := 3 |} in
  let t' := {| an_root := 1; an_known := [(8, 110)]; an_dbc := 3 |} in
  let o := {| an_root := 2; an_known := [(9, 200)]; an_dbc := 4 |} in
  merge_anchors (ASTapret t) (ASDouble t' o)
  = Ok (ASDouble {| an_root := 1; an_known := [(7, 100); (8, 110)]; an_dbc := 3 |} o) /\
  agree (Some t) (Some t').
Proof. split; [reflexivity|]. intros p m n. cbn. destruct (keqb p 7) eqn:E, (keqb p 8) eqn:E'; try discriminate.
  apply keqb_true in E, E'. congruence. Qed.

Print Assumptions C16_merge_succeeds_iff.
Print Assumptions C16_merge_keeps_methods.
Print Assumptions C16_merge_keeps_messages.
Print Assumptions C16_merge_idempotent.
Print Assumptions C16_known_bundle_ids_partial.
Print Assumptions C16_known_bundle_ids_refuted.
Print Assumptions C16_known_bundle_ids_kept_partial.

(** ** C17, witness bundles and consignments *)
(** Revealing a seal for a bundle id reports whether the bundle is there and changes
    only that bundle. *)
Theorem C17_witness_bundle : forall H bid seal w,
  collision_free H -> methods_ok (wb_bundles w) ->
  (fst (wb_reveal_seal H bid seal w) = true <->
     exists a b, carries (wb_bundles w) a b /\ bundle_id H b = bid) /\
  witness_rel (fun b b' => if bundle_id H b =? bid then b' = reveal_bundle H seal b else b' = b)
              w (snd (wb_reveal_seal H bid seal w)).
Proof. intros H bid seal w. exact (wb_reveal_seal_spec H bid seal w). Qed.

(** Revealing the terminals of a consignment: each bundle listed as a terminal whose
    secret is known is revealed with the known seal, every other bundle and everything
    else in the consignment is as before. *)
Theorem C17_consignment : forall E H (f : N -> result E (option Seal)) c r,
  collision_free H -> msorted (c_terminals c) ->
  (forall wb, In wb (c_bundles c) -> methods_ok (wb_bundles wb)) ->
  reveal_terminal_seals H f c = Ok r ->
  r = set_bundles c (c_bundles r) /\
  Forall2 (witness_rel (terminal_revealed H f (c_terminals c))) (c_bundles c) (c_bundles r).
Proof. intros E H f c r. exact (reveal_terminal_seals_ok H f c r). Qed.

(** It fails only if the lookup of a secret fails. *)
Theorem C17_consignment_total : forall E H (f : N -> result E (option Seal)) c,
  (forall k s, In (k, s) (c_terminals c) -> exists o, f s = Ok o) ->
  exists r, reveal_terminal_seals H f c = Ok r.
Proof. intros E H f c. exact (reveal_terminal_seals_total H f c). Qed.

Definition ex_trans (a : list Assign) : Operation :=
  {| op_kind := OpTransition; op_head := 0; op_contract := 1; op_ty := 2; op_nonce := 0; op_meta := [];
     op_globals := []; op_inputs := []; op_redeemed := [];
     op_assigns := [(4, {| ta_kind := KDeclarative; ta_list := a |})]; op_valencies := [] |}.
Definition ex_gseal : Seal :=
  {| s_layer := Bitcoin; s_method := TapretFirst; s_txid := None; s_vout := 1; s_blinding := 77 |}.
Definition ex_client (m : CloseMethod) (inputs : omap N N) (known : omap N Operation) : ClientBundle :=
  {| cb_mpc := 0; cb_dbc := {| dp_method := m; dp_data := 0 |};
     cb_bundle := {| b_method := m; b_inputs := inputs; b_known := known |} |}.

Example C17_consignment_witness : forall H, collision_free H ->
  let t := ex_trans [ConfidentialSeal (h_seal H ex_gseal) RVoid] in
  let w := {| wb_witness := {| xw_layer := Bitcoin; xw_pub := PwTxid 8 |};
              wb_bundles := ABDouble (ex_client TapretFirst [(0, 5)] [(5, t)])
                                     (ex_client OpretFirst [(0, 6)] [(6, t)]) |} in
  let bid := h_bundle H OpretFirst [(0, 6)] in
  methods_ok (wb_bundles w) /\
  snd (wb_reveal_seal H bid ex_gseal w) =
    {| wb_witness := wb_witness w;
       wb_bundles := ABDouble (ex_client TapretFirst [(0, 5)] [(5, t)])
                              (ex_client OpretFirst [(0, 6)] [(6, ex_trans [Revealed ex_gseal RVoid])]) |}.
Proof.
  intros H (_ & _ & _ & Hb) t w bid. split; [split; reflexivity|].
  assert (Ht : (h_bundle H TapretFirst [(0, 5)] =? bid) = false).
  { apply N.eqb_neq. intros E. unfold bid in E. apply Hb in E as [E _]. discriminate. }
  assert (Ho : (h_bundle H OpretFirst [(0, 6)] =? bid) = true) by apply N.eqb_refl.
  assert (Er : reveal_op H ex_gseal t = ex_trans [Revealed ex_gseal RVoid]).
  { unfold t, reveal_op, reveal_typed.
    cbn [op_assigns ex_trans mmap map fst snd ta_list ta_kind reveal_assign]. rewrite N.eqb_refl. reflexivity. }
  unfold wb_reveal_seal, w, bundle_id, ex_client. cbn [wb_bundles cb_bundle b_method b_inputs].
  rewrite Ht, Ho. cbn [snd]. unfold cb_reveal, reveal_bundle.
  cbn [cb_mpc cb_dbc cb_bundle b_method b_inputs b_known mmap map fst snd]. rewrite Er. reflexivity.
Qed.

Print Assumptions C17_witness_bundle.
Print Assumptions C17_consignment.
Print Assumptions C17_consignment_total.

(** ** C18 *)
(** Bundles and anchors: found together, of one and the same item, iff there is one. *)
Theorem C18_bundle_and_anchor : forall H c bid,
  match index_bundle H c bid, index_anchor H c bid with
  | Some b, Some (w, a) => holds c w a b /\ bundle_id H b = bid
  | None, None => forall w a b, holds c w a b -> bundle_id H b <> bid
  | _, _ => False
  end.
Proof. exact index_bundle_spec. Qed.

Theorem C18_bundle_ids : forall H c,
  NoDup (index_bundle_ids H c) /\
  forall bid, In bid (index_bundle_ids H c) <-> exists w a b, holds c w a b /\ bundle_id H b = bid.
Proof. exact index_bundle_ids_spec. Qed.

Theorem C18_pub_witness : forall H c w,
  match index_pub_witness H c w with
  | Some p => exists wb, In wb (c_bundles c) /\ wb_witness wb = p /\ witness_id p = w
  | None => forall wb, In wb (c_bundles c) -> wb_id wb <> w
  end.
Proof. exact index_pub_witness_spec. Qed.

(** The witness of an operation is one whose bundle contains the operation. *)
Theorem C18_op_witness_id : forall H c opid,
  match index_op_witness_id H c opid with
  | Some w => exists a b t, holds c w a b /\ mget opid (b_known b) = Some t
  | None => forall w a b, holds c w a b -> mget opid (b_known b) = None
  end.
Proof.
  intros H c opid. pose proof (index_op_spec H c opid) as S.
  destruct (index_op_witness_id H c opid) as [w|], (mget opid (ix_op_bundle (index_new H c))); try contradiction.
  - destruct S as (a & b & t & Hh & _ & Et). eauto.
  - exact S.
Qed.

(** An operation found is in the consignment under that id, ... *)
Theorem C18_operation_sound : forall H c opid o,
  index_operation H c opid = Some o -> contains_op H c opid o.
Proof. exact index_operation_sound. Qed.

(** ... with that id, if known transitions are filed under their ids; ... *)
Theorem C18_operation_id : forall H c opid o,
  (forall w a b, holds c w a b -> bundle_keyed H b) ->
  index_operation H c opid = Some o -> op_id H o = opid.
Proof.
  intros H c opid o Hk E. apply index_operation_sound in E as [_ E|w a b Hh E|_ E]; try exact E.
  apply (Hk _ _ _ Hh _ _ E).
Qed.

(** ... but an operation in the consignment may not be found: when two copies of a
    bundle know different transitions, the later copy hides what only the earlier
    one knows. *)
Theorem C18_operation_complete_refuted : exists H c opid o,
  collision_free H /\ contains_op H c opid o /\ index_operation H c opid = None.
Proof.
  destruct (ex_intro _ ideal_hashes ideal_collision_free : exists H, collision_free H) as [H HC].
  set (t := ex_trans []).
  set (g := {| op_kind := OpGenesis; op_head := 0; op_contract := 0; op_ty := 0; op_nonce := 0; op_meta := [];
     op_globals := []; op_inputs := []; op_redeemed := []; op_assigns := []; op_valencies := [] |}).
  set (w i k := {| wb_witness := {| xw_layer := Bitcoin; xw_pub := PwTxid i |};
                   wb_bundles := ABTapret (ex_client TapretFirst [(0, op_id H t)] k) |}).
  set (c0 := {| c_transfer := true; c_terminals := []; c_genesis := g; c_extensions := [];
        c_bundles := [w 1 [(op_id H t, t)]; w 2 []];
        c_schema := {| sch_id := 0; sch_globals := []; sch_libs := []; sch_types := [] |};
        c_ifaces := []; c_supplements := []; c_types := []; c_scripts := []; c_attachments := [];
        c_signatures := [] |}). exists H, c0, (op_id H t), t.
  split; [exact HC|]. split.
  - eapply co_transition with (w := wb_id (w 1 [(op_id H t, t)])).
    + exists (w 1 [(op_id H t, t)]). split; [left; reflexivity|]. split; [reflexivity|]. apply carries_tapret.
    + cbn [w ex_client cb_bundle b_known mget]. rewrite keqb_refl. reflexivity.
  - assert (Eg : (op_id H t =? op_id H (c_genesis c0)) = false).
    { apply N.eqb_neq. intros E. unfold op_id in E. destruct HC as (_ & _ & Ho & _). apply Ho in E. discriminate. }
    unfold index_operation, index_transition. rewrite Eg.
    destruct (index_new_fields H c0) as (_ & B & C & _ & _ & F). rewrite B, C, F, !fold_ins_get. clear B C F.
    assert (Ek : keqb (op_id H t) (op_id H t) = true) by apply keqb_refl.
    set (o := op_id H t) in *. clearbody o. unfold c0, w. cbn [c_bundles c_extensions].
    cbn -[keqb t]. rewrite Ek. cbn -[keqb t].
    unfold t_bid, bundle_id. cbn [snd b_method b_inputs]. rewrite N.compare_refl. cbn [mget b_known]. rewrite keqb_refl. reflexivity.
Qed.

(** It is always found when copies of one bundle know the same.  Missing for C18: the
    case above. *)
Theorem C18_operation_complete_partial : forall H c opid, copies_agree H c ->
  index_operation H c opid = None -> forall o, ~ contains_op H c opid o.
Proof. exact index_operation_complete. Qed.

Example C18_witness : forall H, collision_free H ->
  let t := ex_trans [] in
  let w := {| wb_witness := {| xw_layer := Bitcoin; xw_pub := PwTxid 1 |};
              wb_bundles := ABTapret (ex_client TapretFirst [(0, op_id H t)] [(op_id H t, t)]) |} in
  forall c, c_bundles c = [w] -> copies_agree H c /\
  index_op_witness_id H c (op_id H t) = Some {| w_layer := Bitcoin; w_txid := 1 |}.
Proof.
  intros H HC t w c Ec. split.
  - intros w1 a1 b1 w2 a2 b2 (x & Hx & _ & C1) (y & Hy & _ & C2) _. rewrite Ec in Hx, Hy.
    destruct Hx as [<-|[]], Hy as [<-|[]]. cbn in C1, C2. inversion C1; inversion C2; subst. reflexivity.
  - unfold index_op_witness_id.
    destruct (index_new_fields H c) as (_ & _ & _ & _ & A & _). rewrite A, Ec. cbn. rewrite keqb_refl. reflexivity.
Qed.

Print Assumptions C18_bundle_and_anchor.
Print Assumptions C18_bundle_ids.
Print Assumptions C18_pub_witness.
Print Assumptions C18_op_witness_id.
Print Assumptions C18_operation_sound.
Print Assumptions C18_operation_id.
Print Assumptions C18_operation_complete_refuted.
Print Assumptions C18_operation_complete_partial.

(** ** C19 *)
Theorem C19_close_method_set : forall b,
  (has_tapret_first (close_method_set b) = true <->
     exists i, In i (batch_slots b) /\ ti_method i = TapretFirst) /\
  (has_opret_first (close_method_set b) = true <->
     exists i, In i (batch_slots b) /\ ti_method i = OpretFirst).
Proof.
  intros b. split.
  - rewrite (batch_has has_tapret_first or_tapret). split; intros (i & Hi & E); exists i; split; auto;
      destruct (ti_method i); (reflexivity || discriminate).
  - rewrite (batch_has has_opret_first or_opret). split; intros (i & Hi & E); exists i; split; auto;
      destruct (ti_method i); (reflexivity || discriminate).
Qed.

(** Each transition once, blanks before the main ones *)
Theorem C19_iterate : forall b,
  Permutation (batch_iter b) (batch_slots b) /\
  exists bl, batch_iter b = bl ++ di_first (ba_main b)
                              :: match di_second (ba_main b) with Some i => [i] | None => [] end /\
             length bl = (length (ba_blanks b) + length (filter_map di_second (ba_blanks b)))%nat.
Proof.
  intros b. split; [apply batch_iter_perm|].
  exists (flat_map di_iter (ba_blanks b)). split.
  - unfold batch_iter. rewrite flat_map_app. cbn [flat_map]. rewrite app_nil_r. reflexivity.
  - rewrite (Permutation_length (di_iter_perm (ba_blanks b))), app_length, map_length. reflexivity.
Qed.

(** Setting the priority sets the nonce of every transition and changes nothing else: *)
Theorem C19_set_priority : forall p b,
  Forall2 (fun i i' => ti_transition i' = set_nonce (ti_transition i) p /\ ti_inputs i' = ti_inputs i /\
                       ti_method i' = ti_method i /\ ti_id i' = ti_id i)
          (batch_slots b) (batch_slots (set_priority p b)) /\
  length (ba_blanks (set_priority p b)) = length (ba_blanks b).
Proof.
  intros p b. split.
  - rewrite batch_slots_priority. induction (batch_slots b) as [|i l IH]; cbn [map]; constructor; auto.
  - cbn. apply map_length.
Qed.

(** so a batch whose recorded ids are right keeps them right only if no nonce changes. *)
Theorem C19_ids_synced_partial : forall H p b, collision_free H ->
  (forall i, In i (batch_slots b) -> info_synced H i) ->
  ((forall i, In i (batch_slots (set_priority p b)) -> info_synced H i) <->
   (forall i, In i (batch_slots b) -> op_nonce (ti_transition i) = p)).
Proof.
  intros H p b (_ & _ & Ho & _) Hs. rewrite batch_slots_priority. split.
  - intros Hn i Hi. specialize (Hn (set_info_nonce p i) (in_map _ _ _ Hi)). specialize (Hs i Hi).
    unfold info_synced in *. cbn in Hn. rewrite Hs in Hn. unfold op_id in Hn. apply Ho in Hn.
    apply (f_equal op_nonce) in Hn. exact Hn.
  - intros Hn i Hi. apply in_map_iff in Hi as (i0 & <- & Hi0). specialize (Hn i0 Hi0). specialize (Hs i0 Hi0).
    unfold info_synced in *. cbn. rewrite Hs. f_equal. destruct (ti_transition i0). cbn in *. subst. reflexivity.
Qed.

Definition ex_info (H : Hashes) (m : CloseMethod) : TransitionInfo :=
  {| ti_id := op_id H (ex_trans []); ti_inputs := []; ti_transition := ex_trans []; ti_method := m |}.

Theorem C19_ids_synced_refuted : exists H p b,
  (forall i, In i (batch_slots b) -> info_synced H i) /\
  exists i, In i (batch_slots (set_priority p b)) /\ ~ info_synced H i.
Proof.
  destruct (ex_intro _ ideal_hashes ideal_collision_free : exists H, collision_free H) as [H HC].
  exists H, 9, {| ba_main := di_single (ex_info H TapretFirst); ba_blanks := [] |}.
  split; [intros i [<-|[]]; reflexivity|].
  exists (set_info_nonce 9 (ex_info H TapretFirst)). split; [left; reflexivity|].
  unfold info_synced. cbn. intros E. unfold op_id in E. destruct HC as (_ & _ & Ho & _). apply Ho in E. discriminate.
Qed.

(** A transition info records the id of its transition, the outpoints of exactly the
    given seals and their closing method; seals of different methods, none or more
    than the container holds are refused. *)
Theorem C19_transition_info : forall H t seals,
  match transition_info_new H t seals with
  | Ok i => seals <> [] /\ info_synced H i /\ ti_transition i = t /\
            (forall o, In o (ti_inputs i) <-> exists s, In s seals /\ os_outpoint s = o) /\
            NoDup (ti_inputs i) /\ len (ti_inputs i) <= U24MAX /\
            forall s, In s seals -> os_method s = ti_method i
  | Panic => seals = []
  | Err (TiTooMany id) => id = op_id H t /\
        exists l, NoDup l /\ U24MAX < len l /\ forall o, In o l <-> exists s, In s seals /\ os_outpoint s = o
  | Err (TiMethodDivergence id) => id = op_id H t /\
        exists s s', In s seals /\ In s' seals /\ os_method s <> os_method s'
  end.
Proof.
  intros H t seals. unfold transition_info_new. destruct seals as [|s0 l]; [reflexivity|].
  set (S := s0 :: l). set (I := sfrom (map os_outpoint S)).
  assert (HI : forall o, In o I <-> exists s, In s S /\ os_outpoint s = o).
  { intros o. unfold I. rewrite sfrom_In, in_map_iff. firstorder. }
  assert (HN : NoDup I) by apply ssorted_NoDup, sfrom_sorted.
  destruct (N.ltb_spec U24MAX (len I)) as [Hl|Hl].
  - split; [reflexivity|]. exists I. auto.
  - destruct (existsb (fun x => negb (keqb (os_method x) (os_method s0))) S) eqn:Ee.
    + split; [reflexivity|]. apply existsb_exists in Ee as (x & Hx & Ex). apply negb_true_iff in Ex.
      apply keqb_false in Ex. exists x, s0. repeat split; [exact Hx|left; reflexivity|exact Ex].
    + cbn [ti_id ti_inputs ti_transition ti_method info_synced]. repeat split; try assumption; try discriminate.
      * intros Ho. apply HI. exact Ho.
      * intros Hs. apply HI. exact Hs.
      * intros s Hs. destruct (keqb (os_method s) (os_method s0)) eqn:E; [apply keqb_true; exact E|].
        exfalso. assert (T : existsb (fun x => negb (keqb (os_method x) (os_method s0))) S = true).
        { apply existsb_exists. exists s. rewrite E. auto. }
        congruence.
Qed.

(** Pairs: only lists of one or two items can be collected, and iterate back. *)
Theorem C19_dichotomy : forall E A (l : list A),
  match @di_from_iter E A l with
  | Ok d => di_iter d = l
  | Err _ => False
  | Panic => l = [] \/ (2 < length l)%nat
  end.
Proof. intros E A [|a [|b [|c l]]]; cbn; auto. right. lia. Qed.

Theorem C19_fascia_bundles : forall f k b, msorted (fa_bundles f) ->
  In (k, b) (fascia_bundles f) <->
  exists d, mget k (fa_bundles f) = Some d /\ (di_first d = b \/ di_second d = Some b).
Proof.
  intros f k b Hs. unfold fascia_bundles. rewrite in_flat_map. split.
  - intros ([k' d] & Hi & Hm). cbn [fst snd] in Hm. apply in_map_iff in Hm as (b' & [= <- <-] & Hb).
    exists d. split; [apply In_mget; assumption|]. unfold di_iter in Hb. destruct Hb as [E|Hb]; [auto|].
    destruct (di_second d) as [s|]; [|destruct Hb]. destruct Hb as [<-|[]]. auto.
  - intros (d & E & Hb). apply mget_In in E. exists (k, d). split; [exact E|]. cbn [fst snd].
    apply in_map_iff. exists b. split; [reflexivity|]. unfold di_iter. destruct Hb as [->| ->]; [left|right; left]; reflexivity.
Qed.

Example C19_witness : forall H,
  let b := {| ba_main := di_single (ex_info H TapretFirst);
              ba_blanks := [di_double (ex_info H TapretFirst) (ex_info H OpretFirst)] |} in
  close_method_set b = MBoth /\ length (batch_iter b) = 3%nat /\
  (forall i, In i (batch_slots b) -> info_synced H i).
Proof.
  intros H b. repeat split. intros i Hi. cbn in Hi.
  repeat (destruct Hi as [<-|Hi]; [reflexivity|]). destruct Hi.
Qed.

Print Assumptions C19_close_method_set.
Print Assumptions C19_iterate.
Print Assumptions C19_set_priority.
Print Assumptions C19_ids_synced_partial.
Print Assumptions C19_ids_synced_refuted.
Print Assumptions C19_transition_info.
Print Assumptions C19_dichotomy.
Print Assumptions C19_fascia_bundles.

(** ** C54 *)
(** Revealing a transition in a bundle succeeds exactly if the bundle spends inputs
    for it, never panics, reports whether it was new, and never replaces or removes
    what was known. *)
Theorem C54_reveal_transition : forall H c t,
  let b := cb_bundle c in
  (forall k x, mget k (b_known b) = Some x -> In k (mvals (b_inputs b))) ->
  msorted (b_known b) -> len (b_inputs b) <= U16MAX ->
  if negb (existsb (N.eqb (op_id H t)) (mvals (b_inputs b)))
  then reveal_transition H c t = Err (UnrelatedTransition (op_id H t))
  else exists c', reveal_transition H c t = Ok (negb (mhas (op_id H t) (b_known b)), c') /\
       cb_mpc c' = cb_mpc c /\ cb_dbc c' = cb_dbc c /\
       b_method (cb_bundle c') = b_method b /\ b_inputs (cb_bundle c') = b_inputs b /\
       forall k, mget k (b_known (cb_bundle c')) =
                 match mget k (b_known b) with
                 | Some x => Some x
                 | None => if k =? op_id H t then Some t else None
                 end.
Proof. exact reveal_transition_spec. Qed.

Example C54_witness : forall H,
  let t := ex_trans [] in
  let c := ex_client TapretFirst [(0, op_id H t); (1, op_id H t)] [] in
  reveal_transition H c t
  = Ok (true, ex_client TapretFirst [(0, op_id H t); (1, op_id H t)] [(op_id H t, t)]).
Proof. intros H t c. unfold reveal_transition. cbn. rewrite N.eqb_refl. reflexivity. Qed.

Print Assumptions C54_reveal_transition.

(** ** C55 *)
(** A witness takes a second bundle exactly if it has one of the other closing method;
    then it carries both, and what it carried before is unchanged. *)
Theorem C55_into_double : forall w c,
  dp_method (cb_dbc c) = b_method (cb_bundle c) ->
  match into_double w c with
  | Ok w' => wb_witness w' = wb_witness w /\
             (forall a b, carries (wb_bundles w') a b <->
                          carries (wb_bundles w) a b \/ (a = cb_anchor c /\ b = cb_bundle c)) /\
             (methods_ok (wb_bundles w) -> methods_ok (wb_bundles w'))
  | Err (AlreadyDouble i) => i = wb_id w /\ exists t o, wb_bundles w = ABDouble t o
  | Err (SameBundleType i) => i = wb_id w /\
      ((exists t, wb_bundles w = ABTapret t /\ dp_method (cb_dbc c) = TapretFirst) \/
       (exists o, wb_bundles w = ABOpret o /\ dp_method (cb_dbc c) = OpretFirst))
  | Panic => False
  end.
Proof.
  intros w [mpc dbc b] Hm. unfold into_double. cbn [cb_dbc cb_mpc cb_bundle] in *.
  unfold client_bundle_new. rewrite Hm, keqb_refl.
  destruct (wb_bundles w) as [t|o|t o] eqn:Ew; [destruct (b_method b) eqn:Eb|destruct (b_method b) eqn:Eb|]; cbn [rbind].
  - cbn [wb_witness wb_bundles]. split; [reflexivity|]. split; [|cbn; intros ->; auto].
    intros a b'. split.
    + intros C. inversion C; subst; [left; constructor|right; auto].
    + intros [C|[-> ->]]; [inversion C; subst; constructor|].
      apply (carries_double_opret t {| cb_mpc := mpc; cb_dbc := dbc; cb_bundle := b |}).
  - split; [reflexivity|]. left. eauto.
  - split; [reflexivity|]. right. eauto.
  - cbn [wb_witness wb_bundles]. split; [reflexivity|]. split; [|cbn; intros ->; auto].
    intros a b'. split.
    + intros C. inversion C; subst; [right; auto|left; constructor].
    + intros [C|[-> ->]]; [inversion C; subst; constructor|].
      apply (carries_double_tapret {| cb_mpc := mpc; cb_dbc := dbc; cb_bundle := b |} o).
  - split; [reflexivity|]. eauto.
Qed.

(** A new witness bundle carries exactly the given bundle under its method's slot. *)
Theorem C55_with : forall E w c, dp_method (cb_dbc c) = b_method (cb_bundle c) ->
  exists r, @wb_with E w c = Ok r /\ wb_witness r = w /\ methods_ok (wb_bundles r) /\
  forall a b, carries (wb_bundles r) a b <-> a = cb_anchor c /\ b = cb_bundle c.
Proof.
  intros E w [mpc dbc b] Hm. unfold wb_with, anchored_from, client_bundle_new. cbn [cb_dbc cb_mpc cb_bundle] in *.
  rewrite Hm, keqb_refl. destruct (b_method b) eqn:Eb; cbn [rmap rbind]; eexists; (split; [reflexivity|]);
    cbn [wb_witness wb_bundles]; (split; [reflexivity|]); (split; [exact Eb|]); intros a b'; split.
  1, 3: intros C; inversion C; subst; auto.
  all: intros [-> ->].
  - apply (carries_opret {| cb_mpc := mpc; cb_dbc := dbc; cb_bundle := b |}).
  - apply (carries_tapret {| cb_mpc := mpc; cb_dbc := dbc; cb_bundle := b |}).
Qed.

(** A bundle whose proof has another closing method can not be added: it panics. *)
Theorem C55_method_mismatch : forall E w c,
  dp_method (cb_dbc c) <> b_method (cb_bundle c) -> @wb_with E w c = Panic.
Proof.
  intros E w [mpc dbc b] Hm. unfold wb_with, anchored_from, client_bundle_new. cbn [cb_dbc cb_mpc cb_bundle] in *.
  apply keqb_neq in Hm. rewrite Hm. destruct (dp_method dbc); reflexivity.
Qed.

Example C55_witness :
  let c m := ex_client m [(0, 5)] [] in
  let w := {| wb_witness := {| xw_layer := Bitcoin; xw_pub := PwTxid 8 |}; wb_bundles := ABOpret (c OpretFirst) |} in
  into_double w (c TapretFirst) = Ok {| wb_witness := wb_witness w; wb_bundles := ABDouble (c TapretFirst) (c OpretFirst) |}.
Proof. reflexivity. Qed.

Print Assumptions C55_into_double.
Print Assumptions C55_with.
Print Assumptions C55_method_mismatch.
