(** * What can be exported stays exportable: property C80 *)
From Verif Require Import Base StM Core Ser ContainerModel ContainerSpec PIndexModel PIndexSpec StateModel StateSpec StateProps.
From Verif Require Import StashModel StashSpec StashProps StockModel StockAgain StockProps ConsignModel ConsignSpec ConsignProofs ConsignProps TransferProps.
From Verif Require Import SupplySpec SupplyProps LedgerSpec LedgerProofs LedgerProps AgreeProps ReplicaSpec ReplicaProps ExportSpec ExportProps IsolationProps.
From Verif Require Import GrowSpec GrowProofs GrowMain.
Local Open Scope N_scope.

(** A stock which exports a contract exports it as well after further successful calls, with
    the same terminals and nothing less revealed, if the same outputs are found, no witness was
    archived meanwhile, and every bundle came with an anchor of its own. *)
Theorem C80_export_partial : forall (OG : OrdKey GlobalOut) H K calls more transfer cid outputs secret fuel c,
  collision_free H -> no_cycles H -> proves_known K ->
  (forall x, In x (calls ++ more) -> ledger_call_ok H x) ->
  (forall f r, In (SkFascia f r) (calls ++ more) -> anchor_wf (fa_anchor f)) ->
  all_calls_succeed H K sk_empty (calls ++ more) ->
  well_anchored H (calls ++ more) -> one_message H (calls ++ more) ->
  let s := stock_after H K sk_empty calls in
  let s' := stock_after H K sk_empty (calls ++ more) in
  (forall w, alive calls (Some w) -> alive (calls ++ more) (Some w)) ->
  (forall w sw, stash_witness (sk_stash s') w = Ok sw -> status (calls ++ more) w <> None) ->
  (forall oo, found s' cid outputs secret oo <-> found s cid outputs secret oo) ->
  in_contract s cid outputs secret -> definable (sk_stash s') cid ->
  consign H K fuel s transfer cid outputs secret = Some (Ok c) ->
  (exists fuel' c', consign H K fuel' s' transfer cid outputs secret = Some (Ok c')) /\
  forall fuel' transfer' c', consign H K fuel' s' transfer' cid outputs secret = Some (Ok c') -> shows_as_much H c c'.
Proof.
  intros OG H K calls more transfer cid outputs secret fuel c HC Nc Pk Hok Wf Su Wa Om s s' Al St Fo Ow Df Ex.
  destruct (calls_grow H HC K calls more Hok Su) as (Sd & Sd' & Ki & Kb). fold s s' in Sd, Sd', Ki, Kb.
  pose proof (after_supported H HC K (calls ++ more) Hok Wf Su Wa Om) as Sp. fold s' in Sp.
  assert (Re : reachable H K s).
  { exists calls. split; [|reflexivity]. intros x Hx. apply (Hok x). apply in_or_app. auto. }
  assert (Re' : reachable H K s').
  { exists (calls ++ more). split; [|reflexivity]. intros x Hx. apply (Hok x Hx). }
  assert (Su1 : all_calls_succeed H K sk_empty calls).
  { clear - Su. revert Su. generalize sk_empty. induction calls as [|x l IH]; intros s0; cbn; [auto|]. intros (A & B). split; [exact A|]. apply IH, B. }
  assert (Xp : exportable H K s cid outputs secret) by (apply (C63_export OG H K s transfer cid outputs secret HC Nc Re); eauto).
  pose proof (xp_known _ _ _ _ _ _ Xp) as Kn.
  assert (Wl : forall w, live (sk_state s) (Some w) -> live (sk_state s') (Some w)).
  { intros w (o & E & Na). unfold s in E. rewrite (C73_status OG H K calls w HC (fun x Hx => Hok x (in_or_app _ _ _ (or_introl Hx))) Su1) in E.
    destruct (Al w) as (o' & E' & Na'); [exists o; auto|]. exists o'. split; [|exact Na'].
    unfold s'. rewrite (C73_status OG H K (calls ++ more) w HC Hok Su). exact E'. }
  assert (St' : forall bid w, states (sk_index s') (FWitness bid w) -> mget w (ms_witnesses (sk_state s')) <> None).
  { intros bid w F. destruct (sp_witness _ Sp bid w F) as (cid' & b & sw & an & _ & _ & Ew & _).
    unfold s'. rewrite (C73_status OG H K (calls ++ more) w HC Hok Su). apply (St w sw).
    unfold stash_witness. rewrite Ew. reflexivity. }
  split.
  - apply (C63_export OG H K s' transfer cid outputs secret HC Nc Re').
    exact (export_grows H HC K s s' cid outputs secret Sd Sd' Sp Ki Kb Wl St' Fo Ow Df Pk Kn Xp).
  - intros fuel' transfer' c' Ex'.
    exact (content_grows H HC K s s' cid outputs secret Sd Sd' Ki Kb Fo Kn fuel fuel' transfer transfer' c c' Ex Ex').
Qed.

(** *** A payment to a secret seal can be exported; then its seal becomes known *)

Definition gw_calls : list StockCall := [SkSeal ag_other; SkAccept rp_issue st_pending; SkAccept rp_pay st_pending].
Definition gw_more : list StockCall := [SkAccept rp_open st_pending].
Definition gw_bid : N := bundle_id bit_hashes lg_bundle.

Lemma gw_second c : In c (gw_calls ++ gw_more) -> In c rp_second.
Proof. cbn [In rp_second gw_calls gw_more app]. tauto. Qed.

Example C80_export_nonvacuous : forall OG : OrdKey GlobalOut,
  let H := bit_hashes in
  let s := stock_after H cn_merkle sk_empty gw_calls in
  let s' := stock_after H cn_merkle sk_empty (gw_calls ++ gw_more) in
  collision_free H /\ no_cycles H /\ proves_known cn_merkle /\
  (forall x, In x (gw_calls ++ gw_more) -> ledger_call_ok H x) /\
  (forall f r, In (SkFascia f r) (gw_calls ++ gw_more) -> anchor_wf (fa_anchor f)) /\
  all_calls_succeed H cn_merkle sk_empty (gw_calls ++ gw_more) /\
  well_anchored H (gw_calls ++ gw_more) /\ one_message H (gw_calls ++ gw_more) /\
  (forall w, alive gw_calls (Some w) -> alive (gw_calls ++ gw_more) (Some w)) /\
  (forall w sw, stash_witness (sk_stash s') w = Ok sw -> status (gw_calls ++ gw_more) w <> None) /\
  (forall oo, found s' sp_cid [] (Some cn_secret) oo <-> found s sp_cid [] (Some cn_secret) oo) /\
  in_contract s sp_cid [] (Some cn_secret) /\ definable (sk_stash s') sp_cid /\
  exists c c', consign H cn_merkle 5 s true sp_cid [] (Some cn_secret) = Some (Ok c) /\
    consign H cn_merkle 5 s' true sp_cid [] (Some cn_secret) = Some (Ok c') /\ c_bundles c <> c_bundles c' /\ len (c_bundles c) = 1.
Proof.
  intros OG H s s'.
  split; [exact bit_collision_free|]. split; [exact bit_no_cycles|]. split; [exact cn_proves|].
  split; [exact (rp_ok _ gw_second)|].
  split. { intros f r [X|[X|[X|[X|[]]]]]; discriminate. }
  split. { repeat (split; [vm_compute; reflexivity|]). exact Logic.I. }
  split.
  { split.
    - intros c r w a b Hc (wb & Hw & _ & Cb). destruct Hc as [X|[X|[X|[X|[]]]]]; try discriminate; injection X as <- <-; try destruct Hw as [<-|[]]; try destruct Hw;
        vm_compute in Cb; inversion Cb; subst; reflexivity.
    - intros f r cid b [X|[X|[X|[X|[]]]]]; discriminate. }
  split.
  { assert (B : forall w m cid bid, brings_message bit_hashes (gw_calls ++ gw_more) w m cid bid -> bid = gw_bid).
    { intros w m cid bid [(c & r & a & b & Hc & (wb & Hw & _ & Cb) & _ & _ & ->)|(f & r & an & Hc & _)].
      - assert (Hb : brings_bundle rp_second b).
        { left. exists c, r, wb. split; [apply gw_second, Hc|]. split; [exact Hw|]. destruct Cb; cbn; auto. }
        apply rp_brought in Hb as [<-|[<-|[]]]; reflexivity.
      - destruct Hc as [X|[X|[X|[X|[]]]]]; discriminate. }
    intros w m cid bid bid' X X'. apply B in X, X'. congruence. }
  split.
  { intros w (o & E & Na). unfold alive, status, gw_calls, gw_more in *. cbn [fold_left status_after app] in *.
    assert (E0 : asks (SkAccept rp_open st_pending) w = asks (SkAccept rp_pay st_pending) w) by reflexivity.
    rewrite E0. change (asks (SkAccept rp_issue st_pending) w) with false in *. destruct (asks (SkAccept rp_pay st_pending) w); eauto. }
  split.
  { intros w sw. assert (Ew : exists x, st_witnesses (sk_stash s') = [(st_w 8, x)]) by (eexists; vm_compute; reflexivity).
    destruct Ew as (x & Ew). unfold stash_witness. rewrite Ew. destruct (mget w [(st_w 8, x)]) eqn:Em; [|discriminate]. intros _.
    apply mget_In in Em as [Em|[]]. injection Em as <- _. vm_compute. discriminate. }
  assert (Ti : mi_terminals (sk_index s') = mi_terminals (sk_index s)) by (vm_compute; reflexivity).
  split.
  { intros oo. unfold found. split; (intros [(out & o & [] & _)|(x & Ex & F)]; right; exists x; split; [exact Ex|]).
    - unfold states in *. rewrite Ti in F. exact F.
    - unfold states in *. rewrite Ti. exact F. }
  split.
  { intros id bid _ F. assert (Eo : exists k, mi_op_bundle (sk_index s) = [(k, gw_bid)]) by (eexists; vm_compute; reflexivity).
    destruct Eo as (k & Eo). change (mget id (mi_op_bundle (sk_index s)) = Some bid) in F. rewrite Eo in F.
    apply mget_In in F as [F|[]]. injection F as _ <-.
    vm_compute. reflexivity. }
  assert (Xs : exists c c', consign H cn_merkle 5 s true sp_cid [] (Some cn_secret) = Some (Ok c) /\
    consign H cn_merkle 5 s' true sp_cid [] (Some cn_secret) = Some (Ok c') /\ c_bundles c <> c_bundles c' /\ len (c_bundles c) = 1).
  { eexists. eexists. split; [vm_compute; reflexivity|]. split; [vm_compute; reflexivity|]. split; [vm_compute; discriminate|reflexivity]. }
  split; [|exact Xs].
  destruct Xs as (c & c' & _ & E' & _).
  refine (xp_defined bit_hashes cn_merkle s' sp_cid [] (Some cn_secret) _).
  apply (C63_export OG bit_hashes cn_merkle s' true sp_cid [] (Some cn_secret) bit_collision_free bit_no_cycles); [|eauto].
  exists (gw_calls ++ gw_more). split; [|reflexivity]. intros x Hx. exact (proj1 (rp_ok _ gw_second x Hx)).
Qed.

(** *** A call which succeeds can make an export impossible *)
Theorem C80_refuted : forall OG : OrdKey GlobalOut,
  exists s s' x B secret,
    reachable bit_hashes cn_merkle s /\ stock_call_ok bit_hashes (SkAccept x yes_witness) /\
    accept_body bit_hashes cn_merkle x yes_witness s = (s', Ok tt) /\
    (exists e, consign bit_hashes cn_merkle 10 s true B [] (Some secret) = Some (Ok e)) /\
    forall fuel e, consign bit_hashes cn_merkle fuel s' true B [] (Some secret) <> Some (Ok e).
Proof.
  intros OG. destruct (C71_export_refuted OG) as (s & s' & c & B & secret & A1 & A2 & _ & A4 & A5 & A6). exists s, s', c, B, secret. exact (conj A1 (conj A2 (conj A4 (conj A5 A6)))).
Qed.

(** *** So can a call which fails *)

(** Proof 13 of an anchor is not one (it stands for any error of the stash before the witness
    is stored, such as a full collection). *)
Definition gw_merkle : Merkle := {| mk_with := fun p _ m => if p =? 13 then None else Some m; mk_proof := fun _ k c => mget c k |}.
Lemma gw_proves : proves_known gw_merkle.
Proof. intros root known cid Hc. cbn. destruct (mget cid known) as [p|]; [eauto|congruence]. Qed.
(** The payment under another transaction, with this proof *)
Definition gw_bad : Consignment :=
  set_bundles rp_pay [{| wb_witness := {| xw_layer := Bitcoin; xw_pub := PwTxid 5 |};
                         wb_bundles := ABTapret {| cb_mpc := 13; cb_dbc := {| dp_method := TapretFirst; dp_data := 0 |}; cb_bundle := lg_bundle |} |}].

Theorem C80_failed_refuted : forall OG : OrdKey GlobalOut,
  exists s s' x e0,
    reachable bit_hashes gw_merkle s /\ proves_known gw_merkle /\ ledger_call_ok bit_hashes (SkAccept x st_pending) /\
    accept_body bit_hashes gw_merkle x st_pending s = (s', Err e0) /\
    (exists e, consign bit_hashes gw_merkle 5 s true sp_cid [] (Some cn_secret) = Some (Ok e)) /\
    forall fuel e, consign bit_hashes gw_merkle fuel s' true sp_cid [] (Some cn_secret) <> Some (Ok e).
Proof.
  intros OG. set (s := stock_after bit_hashes gw_merkle sk_empty gw_calls).
  set (s' := fst (accept_body bit_hashes gw_merkle gw_bad st_pending s)).
  assert (Ok1 : ledger_call_ok bit_hashes (SkAccept gw_bad st_pending)).
  { split; [apply cons_okb_ok; vm_compute; reflexivity|]. split; [repeat constructor|]. intros wb [<-|[]]. reflexivity. }
  assert (Okc : forall x, In x gw_calls -> stock_call_ok bit_hashes x).
  { intros x Hx. apply (rp_ok _ gw_second x), in_or_app. auto. }
  assert (E0 : exists x, snd (accept_body bit_hashes gw_merkle gw_bad st_pending s) = Err x) by (eexists; vm_compute; reflexivity).
  assert (E1 : exists e, consign bit_hashes gw_merkle 5 s true sp_cid [] (Some cn_secret) = Some (Ok e)) by (eexists; vm_compute; reflexivity).
  destruct E0 as (e0 & E0).
  exists s, s', gw_bad, e0. split; [exists gw_calls; split; [exact Okc|reflexivity]|]. split; [exact gw_proves|]. split; [exact Ok1|].
  split. { unfold s'. destruct (accept_body bit_hashes gw_merkle gw_bad st_pending s). cbn [fst snd] in *. rewrite E0. reflexivity. }
  split; [exact E1|].
  assert (Re : reachable bit_hashes gw_merkle s').
  { exists (gw_calls ++ [SkAccept gw_bad st_pending]). split.
    - intros x Hx. apply in_app_or in Hx as [Hx|[<-|[]]]; [apply Okc, Hx|apply Ok1].
    - unfold stock_after. rewrite fold_left_app. cbn [fold_left stock_body]. reflexivity. }
  assert (E5 : exists x, consign bit_hashes gw_merkle 5 s' true sp_cid [] (Some cn_secret) = Some (Err x)) by (eexists; vm_compute; reflexivity).
  destruct E5 as (x & E5). intros fuel e E.
  destruct (C63_failed OG bit_hashes gw_merkle s' true true sp_cid [] (Some cn_secret) 5 _ bit_collision_free bit_no_cycles Re E5 eq_refl) as (_ & F). exact (F fuel e E).
Qed.

Print Assumptions C80_export_partial.
Print Assumptions C80_refuted.
Print Assumptions C80_failed_refuted.
