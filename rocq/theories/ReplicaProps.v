(** * Two stocks to which the same was brought in another order: property C76 *)
From Verif Require Import Base StM Core Ser ContainerModel ContainerSpec PIndexModel StateModel StateSpec StateProps.
From Verif Require Import StashModel StashSpec StashProps StockModel StockAgain StockProps ConsignModel ConsignProps TransferProps.
From Verif Require Import SupplySpec SupplyProps LedgerSpec LedgerProofs LedgerProps AgreeSpec AgreeProofs AgreeProps ReplicaSpec ReplicaProofs ReplicaMore.
Local Open Scope N_scope.

(** Whatever was brought, the order and the number of times do not matter for what is found. *)
Theorem C76_found_partial : forall (OG : OrdKey GlobalOut) H K l l',
  seals_first l -> seals_first l' -> same_calls l l' ->
  all_calls_succeed H K sk_empty l -> all_calls_succeed H K sk_empty l' ->
  finds_same (stock_after H K sk_empty l) (stock_after H K sk_empty l').
Proof.
  intros OG H K l l' F F' Hs Su Su'. unfold finds_same. rewrite (same_index H K l l' F F' Hs Su Su'). repeat split.
Qed.

(** Nor do they matter for the operations which are stored, if no bundle comes with different
    ones of its transitions; they may come concealed to different degrees. *)
Theorem C76_history_partial : forall (OG : OrdKey GlobalOut) H K l l',
  collision_free H -> (forall c, In c l -> ledger_call_ok H c) ->
  seals_first l -> seals_first l' -> same_calls l l' ->
  all_calls_succeed H K sk_empty l -> all_calls_succeed H K sk_empty l' -> same_parts H l ->
  same_history (stock_after H K sk_empty l) (stock_after H K sk_empty l') /\
  forall id, transition (stock_after H K sk_empty l) id = transition (stock_after H K sk_empty l') id.
Proof.
  intros OG H K l l' HC Hok F F' Hs Su Su' Pt.
  pose proof (same_stashes H HC K l l' Hok F F' Hs Su Su' Pt) as S. split; [exact S|].
  intros id. unfold transition. rewrite (same_index H K l l' F F' Hs Su Su').
  destruct (bundle_id_for_op _ id); try reflexivity. cbn. destruct S as (_ & _ & ->). reflexivity.
Qed.

(** Nor for transactions and anchors, if transactions with the same id are the same. *)
Theorem C76_witnesses_partial : forall (OG : OrdKey GlobalOut) H K l l',
  collision_free H -> (forall c, In c l -> ledger_call_ok H c) -> (forall f r, In (SkFascia f r) l -> anchor_wf (fa_anchor f)) ->
  seals_first l -> seals_first l' -> same_calls l l' ->
  all_calls_succeed H K sk_empty l -> all_calls_succeed H K sk_empty l' -> same_txs l -> one_message H l ->
  same_witnesses (stock_after H K sk_empty l) (stock_after H K sk_empty l').
Proof. intros OG H K l l' HC. exact (witnesses_same H HC K l l'). Qed.

(** So whatever both stocks can export is the same, once they have the same news of the
    witnesses. *)
Theorem C76_exports_partial : forall (OG : OrdKey GlobalOut) H K l l',
  collision_free H -> (forall c, In c l -> ledger_call_ok H c) -> (forall f r, In (SkFascia f r) l -> anchor_wf (fa_anchor f)) ->
  seals_first l -> seals_first l' -> same_calls l l' ->
  all_calls_succeed H K sk_empty l -> all_calls_succeed H K sk_empty l' ->
  same_parts H l -> same_txs l -> one_message H l -> (forall w, status l w = status l' w) ->
  same_exports H K (stock_after H K sk_empty l) (stock_after H K sk_empty l').
Proof.
  intros OG H K l l' HC Hok Wf F F' Hs Su Su' Pt Tx Om St. apply exports_same.
  - exact (same_index H K l l' F F' Hs Su Su').
  - exact (same_stashes H HC K l l' Hok F F' Hs Su Su' Pt).
  - exact (witnesses_same H HC K l l' Hok Wf F F' Hs Su Su' Tx Om).
  - intros w. destruct (ledger_made H HC K l Hok Su) as (ls & _ & _ & _ & _ & E & _).
    destruct (ledger_made H HC K l' (fun c Hc => Hok c (proj2 (Hs c) Hc)) Su') as (ls' & _ & _ & _ & _ & E' & _). rewrite E, E'. apply St.
Qed.

(** *** A payment to a secret seal, and the same payment with the seal revealed *)

Definition rp_schema (c : Consignment) : Consignment :=
  {| c_transfer := c_transfer c; c_terminals := c_terminals c; c_genesis := c_genesis c; c_extensions := c_extensions c; c_bundles := c_bundles c;
     c_schema := {| sch_id := g_schema (c_genesis c); sch_globals := []; sch_libs := []; sch_types := [] |};
     c_ifaces := []; c_supplements := []; c_types := []; c_scripts := []; c_attachments := []; c_signatures := [] |}.
Definition rp_pay : Consignment := rp_schema (lg_cons 8).
Definition rp_issue : Consignment := rp_schema ag_issue.
Definition rp_open : Consignment :=
  match resolve_secrets bit_hashes (with_seals [ex_secret] st_empty) (rp_pay) with Ok c => c | _ => rp_pay end.
Definition rp_second : list StockCall :=
  [SkSeal ag_other; SkAccept rp_open st_pending; SkAccept rp_issue st_pending; SkAccept (rp_pay) st_pending; SkAccept rp_issue st_pending].
Definition rp_third : list StockCall :=
  [SkSeal ag_other; SkAccept rp_issue st_pending; SkAccept (rp_pay) st_pending; SkAccept rp_open st_pending].

Lemma rp_ok (l : list StockCall) : (forall c, In c l -> In c rp_second) -> forall c, In c l -> ledger_call_ok bit_hashes c.
Proof.
  intros Hl c Hc. destruct (Hl c Hc) as [<-|[<-|[<-|[<-|[<-|[]]]]]]; try (split; exact Logic.I).
  - split; [apply cons_okb_ok; vm_compute; reflexivity|]. split; [repeat constructor|]. intros wb [<-|[]]. reflexivity.
  - split; [apply cons_okb_ok; vm_compute; reflexivity|]. split; [repeat constructor|]. intros wb [].
  - split; [apply cons_okb_ok; vm_compute; reflexivity|]. split; [repeat constructor|]. intros wb [<-|[]]. reflexivity.
  - split; [apply cons_okb_ok; vm_compute; reflexivity|]. split; [repeat constructor|]. intros wb [].
Qed.

Lemma rp_brought b : brings_bundle rp_second b ->
  In b [lg_bundle; reveal_bundle bit_hashes ex_secret lg_bundle].
Proof.
  intros [(c & r & wb & Hc & Hw & Hb)|(f & r & cid & Hc & _)].
  - destruct Hc as [X|[X|[X|[X|[X|[]]]]]]; try discriminate; injection X as <- <-.
    + destruct Hw as [<-|[]]. destruct Hb as [<-|[]]. right. left. vm_compute. reflexivity.
    + destruct Hw.
    + destruct Hw as [<-|[]]. destruct Hb as [<-|[]]. left. reflexivity.
    + destruct Hw.
  - destruct Hc as [X|[X|[X|[X|[X|[]]]]]]; discriminate.
Qed.

Example C76_example : forall OG : OrdKey GlobalOut,
  collision_free bit_hashes /\ (forall c, In c rp_second -> ledger_call_ok bit_hashes c) /\
  seals_first rp_second /\ seals_first rp_third /\ same_calls rp_second rp_third /\
  all_calls_succeed bit_hashes cn_merkle sk_empty rp_second /\ all_calls_succeed bit_hashes cn_merkle sk_empty rp_third /\
  same_parts bit_hashes rp_second /\ rp_pay <> rp_open /\
  exists b, stash_bundle (sk_stash (stock_after bit_hashes cn_merkle sk_empty rp_third)) (bundle_id bit_hashes lg_bundle) = Ok b /\
    b = reveal_bundle bit_hashes ex_secret lg_bundle /\ b <> lg_bundle.
Proof.
  intros OG. split; [exact bit_collision_free|]. split; [apply rp_ok; auto|].
  split. { exists [SkSeal ag_other], (tl rp_second). split; [reflexivity|]. split; [intros c [<-|[]]; eauto|]. intros s [X|[X|[X|[X|[]]]]]; discriminate. }
  split. { exists [SkSeal ag_other], (tl rp_third). split; [reflexivity|]. split; [intros c [<-|[]]; eauto|]. intros s [X|[X|[X|[]]]]; discriminate. }
  split. { intros c. cbn [In rp_second rp_third]. tauto. }
  split. { repeat (split; [vm_compute; reflexivity|]). exact Logic.I. }
  split. { repeat (split; [vm_compute; reflexivity|]). exact Logic.I. }
  split.
  { intros b b' id Hb Hb' _. apply rp_brought in Hb as [<-|[<-|[]]], Hb' as [<-|[<-|[]]]; auto;
      unfold reveal_bundle; cbn [b_known]; rewrite mget_mmap; destruct (mget id (b_known lg_bundle)); cbn; intros; congruence. }
  split. { intros E. apply (f_equal c_bundles) in E. vm_compute in E. discriminate. }
  eexists. split; [vm_compute; reflexivity|]. split; [vm_compute; reflexivity|]. intros E. apply (f_equal b_known) in E. vm_compute in E. discriminate.
Qed.

Example C76_exports_example : forall OG : OrdKey GlobalOut,
  (forall f r, In (SkFascia f r) rp_second -> anchor_wf (fa_anchor f)) /\ same_txs rp_second /\ one_message bit_hashes rp_second /\
  (forall w, status rp_second w = status rp_third w) /\
  exists c, consign bit_hashes cn_merkle 5 (stock_after bit_hashes cn_merkle sk_empty rp_second) true sp_cid [] (Some cn_secret) = Some (Ok c) /\
    consign bit_hashes cn_merkle 5 (stock_after bit_hashes cn_merkle sk_empty rp_third) true sp_cid [] (Some cn_secret) = Some (Ok c) /\
    len (c_bundles c) = 1 /\ c_terminals c = [(bundle_id bit_hashes lg_bundle, cn_secret)].
Proof.
  intros OG. split. { intros f r [X|[X|[X|[X|[X|[]]]]]]; discriminate. }
  split.
  { assert (B : forall p, brings_tx rp_second p -> pw_tx (xw_pub p) = None).
    { intros p [(c & r & wb & Hc & Hw & ->)|(f & r & Hc & _)].
      - destruct Hc as [X|[X|[X|[X|[X|[]]]]]]; try discriminate; injection X as <- <-; first [destruct Hw as [<-|[]]; reflexivity|destruct Hw].
      - destruct Hc as [X|[X|[X|[X|[X|[]]]]]]; discriminate. }
    intros p p' Hp _ _ F. destruct (F (B p Hp)). }
  split.
  { assert (B : forall w m cid bid, brings_message bit_hashes rp_second w m cid bid -> bid = bundle_id bit_hashes lg_bundle).
    { intros w m cid bid [(c & r & a & b & Hc & (wb & Hw & _ & Cb) & _ & _ & ->)|(f & r & an & Hc & _)].
      - assert (Hb : brings_bundle rp_second b).
        { left. exists c, r, wb. split; [exact Hc|]. split; [exact Hw|]. destruct Cb; cbn; auto. }
        apply rp_brought in Hb as [<-|[<-|[]]]; reflexivity.
      - destruct Hc as [X|[X|[X|[X|[X|[]]]]]]; discriminate. }
    intros w m cid bid bid' X X'. apply B in X, X'. congruence. }
  split.
  { intros w. unfold status, rp_second, rp_third. cbn [fold_left status_after].
    assert (E : asks (SkAccept rp_open st_pending) w = asks (SkAccept (rp_pay) st_pending) w) by reflexivity.
    rewrite E. change (asks (SkAccept rp_issue st_pending) w) with false. destruct (asks (SkAccept (rp_pay) st_pending) w); reflexivity. }
  eexists. split; [vm_compute; reflexivity|]. split; [vm_compute; reflexivity|]. vm_compute. repeat split.
Qed.

(** A transition which comes with a bundle stored without it is dropped: with the bundles in
    the other order it is kept. *)
Definition order_free : Prop := forall (OG : OrdKey GlobalOut) H K l l',
  collision_free H -> (forall c, In c l -> ledger_call_ok H c) ->
  seals_first l -> seals_first l' -> same_calls l l' ->
  all_calls_succeed H K sk_empty l -> all_calls_succeed H K sk_empty l' ->
  forall id, transition (stock_after H K sk_empty l) id = transition (stock_after H K sk_empty l') id.

Definition rp_less : list StockCall := [SkAccept cn_hidden yes_witness; SkAccept (cn_cons bit_hashes [cn_other] cn_a) yes_witness].
Definition rp_more : list StockCall := [SkAccept (cn_cons bit_hashes [cn_other] cn_a) yes_witness; SkAccept cn_hidden yes_witness].
Definition rp_methods (wb : WitnessBundle) : bool :=
  match wb_bundles wb with ABTapret t => match b_method (cb_bundle t) with TapretFirst => true | _ => false end | _ => false end.
Lemma rp_methods_ok c : forallb rp_methods (c_bundles c) = true -> forall wb, In wb (c_bundles c) -> ContainerSpec.methods_ok (wb_bundles wb).
Proof.
  intros T wb Hw. rewrite forallb_forall in T. specialize (T wb Hw). unfold rp_methods in T.
  destruct (wb_bundles wb) as [t| |]; try discriminate. cbn. destruct (b_method (cb_bundle t)); [discriminate|reflexivity].
Qed.
Lemma rp_less_ok c : In c rp_less -> ledger_call_ok bit_hashes c.
Proof.
  intros [<-|[<-|[]]]; (split; [apply cons_okb_ok; vm_compute; reflexivity|split; [apply msorted_nil|]]);
    apply rp_methods_ok; vm_compute; reflexivity.
Qed.

Theorem C76_parts_refuted : forall OG : OrdKey GlobalOut, ~ order_free.
Proof.
  intros OG Bad.
  assert (E1 : exists x, transition (stock_after bit_hashes cn_merkle sk_empty rp_less) (op_id bit_hashes cn_other) = Err x) by (eexists; vm_compute; reflexivity).
  assert (E2 : exists x, transition (stock_after bit_hashes cn_merkle sk_empty rp_more) (op_id bit_hashes cn_other) = Ok x) by (eexists; vm_compute; reflexivity).
  assert (S1 : all_calls_succeed bit_hashes cn_merkle sk_empty rp_less) by (repeat (split; [vm_compute; reflexivity|]); exact Logic.I).
  assert (S2 : all_calls_succeed bit_hashes cn_merkle sk_empty rp_more) by (repeat (split; [vm_compute; reflexivity|]); exact Logic.I).
  assert (F1 : seals_first rp_less).
  { exists [], rp_less. split; [reflexivity|]. split; [intros c []|]. intros s [X|[X|[]]]; discriminate. }
  assert (F2 : seals_first rp_more).
  { exists [], rp_more. split; [reflexivity|]. split; [intros c []|]. intros s [X|[X|[]]]; discriminate. }
  assert (Sc : same_calls rp_less rp_more) by (intros c; cbn [In rp_less rp_more]; tauto).
  destruct E1 as [x E1], E2 as [y E2].
  pose proof (Bad OG bit_hashes cn_merkle rp_less rp_more bit_collision_free rp_less_ok F1 F2 Sc S1 S2 (op_id bit_hashes cn_other)) as E.
  rewrite E1, E2 in E. discriminate.
Qed.

(** Of two transactions with the same id the first stays. *)
Definition rp_tx (body : N) : StockCall :=
  SkAccept (set_bundles (lg_cons 8) [{| wb_witness := {| xw_layer := Bitcoin; xw_pub := PwTx {| tx_txid := 8; tx_body := body |} |};
                                        wb_bundles := wb_bundles (cn_wb 8 lg_bundle) |}]) st_pending.
Theorem C76_txs_refuted : forall OG : OrdKey GlobalOut, ~ forall H K l l',
  collision_free H -> (forall c, In c l -> ledger_call_ok H c) -> (forall f r, In (SkFascia f r) l -> anchor_wf (fa_anchor f)) ->
  seals_first l -> seals_first l' -> same_calls l l' ->
  all_calls_succeed H K sk_empty l -> all_calls_succeed H K sk_empty l' -> same_parts H l -> one_message H l ->
  same_witnesses (stock_after H K sk_empty l) (stock_after H K sk_empty l').
Proof.
  intros OG Bad. set (l := [rp_tx 1; rp_tx 2]). set (l' := [rp_tx 2; rp_tx 1]).
  assert (E1 : exists x, stash_witness (sk_stash (stock_after bit_hashes cn_merkle sk_empty l)) (st_w 8) = Ok x /\ pw_tx (xw_pub (sw_public x)) = Some {| tx_txid := 8; tx_body := 1 |}) by (eexists; split; vm_compute; reflexivity).
  assert (E2 : exists x, stash_witness (sk_stash (stock_after bit_hashes cn_merkle sk_empty l')) (st_w 8) = Ok x /\ pw_tx (xw_pub (sw_public x)) = Some {| tx_txid := 8; tx_body := 2 |}) by (eexists; split; vm_compute; reflexivity).
  assert (S1 : all_calls_succeed bit_hashes cn_merkle sk_empty l) by (repeat (split; [vm_compute; reflexivity|]); exact Logic.I).
  assert (S2 : all_calls_succeed bit_hashes cn_merkle sk_empty l') by (repeat (split; [vm_compute; reflexivity|]); exact Logic.I).
  assert (Hok : forall c, In c l -> ledger_call_ok bit_hashes c).
  { intros c [<-|[<-|[]]]; (split; [apply cons_okb_ok; vm_compute; reflexivity|split; [repeat constructor|]]); apply rp_methods_ok; vm_compute; reflexivity. }
  assert (Bb : forall b, brings_bundle l b -> b = lg_bundle).
  { intros b [(c & r & wb & Hc & Hw & Hb)|(f & r & cid & Hc & _)].
    - destruct Hc as [X|[X|[]]]; injection X as <- <-; destruct Hw as [<-|[]]; destruct Hb as [<-|[]]; reflexivity.
    - destruct Hc as [X|[X|[]]]; discriminate. }
  assert (Sw : same_witnesses (stock_after bit_hashes cn_merkle sk_empty l) (stock_after bit_hashes cn_merkle sk_empty l')).
  { apply (Bad bit_hashes cn_merkle l l' bit_collision_free Hok).
    - intros f r [X|[X|[]]]; discriminate.
    - exists [], l. split; [reflexivity|]. split; [intros c []|]. intros s [X|[X|[]]]; discriminate.
    - exists [], l'. split; [reflexivity|]. split; [intros c []|]. intros s [X|[X|[]]]; discriminate.
    - intros c. cbn [In l l']. tauto.
    - exact S1.
    - exact S2.
    - intros b b' id Hb Hb' _. rewrite (Bb b Hb), (Bb b' Hb'). auto.
    - assert (B : forall w m cid bid, brings_message bit_hashes l w m cid bid -> bid = bundle_id bit_hashes lg_bundle).
      { intros w m cid bid [(c & r & a & b & Hc & (wb & Hw & _ & Cb) & _ & _ & ->)|(f & r & an & Hc & _)].
        - rewrite (Bb b); [reflexivity|]. left. exists c, r, wb. split; [exact Hc|]. split; [exact Hw|]. destruct Cb; cbn; auto.
        - destruct Hc as [X|[X|[]]]; discriminate. }
      intros w m cid bid bid' X X'. apply B in X, X'. congruence. }
  destruct E1 as (x & E1 & T1), E2 as (y & E2 & T2). specialize (Sw (st_w 8)). rewrite E1, E2 in Sw. apply Ok_inj in Sw. subst y. congruence.
Qed.

Print Assumptions C76_found_partial.
Print Assumptions C76_history_partial.
Print Assumptions C76_example.
Print Assumptions C76_parts_refuted.
Print Assumptions C76_witnesses_partial.
Print Assumptions C76_exports_partial.
Print Assumptions C76_exports_example.
Print Assumptions C76_txs_refuted.
