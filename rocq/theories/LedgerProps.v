(** * What a stock was told: properties C73 and C70 for stocks *)
From Verif Require Import Base StM Core Ser ContainerModel ContainerSpec PIndexModel PIndexSpec StateModel StateSpec StateProofs StateProps.
From Verif Require Import StashModel StashSpec StashProps StockModel StockSpec StockProofs StockAgain StockProps FasciaProps ConsignProps TransferProps.
From Verif Require Import SupplySpec SupplyProps LedgerSpec LedgerProofs.
Local Open Scope N_scope.

(** The contracts known are those of consignments accepted. *)
Theorem C73_contracts : forall (OG : OrdKey GlobalOut) H K calls cid,
  collision_free H -> (forall c, In c calls -> ledger_call_ok H c) -> all_calls_succeed H K sk_empty calls ->
  ((exists mc, contract_state (sk_state (stock_after H K sk_empty calls)) cid = Ok mc) <->
   exists c r, In (SkAccept c r) calls /\ cid = op_id H (c_genesis c)).
Proof.
  intros OG H K calls cid HC Hok Hs. destruct (ledger_made H HC K calls Hok Hs) as (ls & L1 & L2 & L3 & L4 & L5 & L6).
  rewrite L1. destruct (C27_known_contracts OG H ls cid) as [A B]. rewrite <- (L4 (fun g _ => cid = op_id H g)). split; [exact A|].
  intros (c & r & Hi & ->). exact (B L2 c r Hi).
Qed.

(** The status of a witness is the one last heard. *)
Theorem C73_status : forall (OG : OrdKey GlobalOut) H K calls w,
  collision_free H -> (forall c, In c calls -> ledger_call_ok H c) -> all_calls_succeed H K sk_empty calls ->
  mget w (ms_witnesses (sk_state (stock_after H K sk_empty calls))) = status calls w.
Proof.
  intros OG H K calls w HC Hok Hs. destruct (ledger_made H HC K calls Hok Hs) as (ls & L1 & L2 & L3 & L4 & L5 & L6). apply L5.
Qed.

(** Each allocation reported is an output of an operation which one of the calls brought, at a
    seal which was in the open or was stored before, and its witness is not archived. *)
Theorem C73_only_told : forall (OG : OrdKey GlobalOut) H K calls cid mc k,
  collision_free H -> (forall c, In c calls -> ledger_call_ok H c) -> all_calls_succeed H K sk_empty calls ->
  contract_state (sk_state (stock_after H K sk_empty calls)) cid = Ok mc ->
  (forall a, In a (outs_all k mc) ->
     (exists ow o x, told H calls cid ow o x /\ gives H o x ow k a) /\ alive calls (oa_witness a)) /\
  NoDup (map (fun a => (oa_opout a, oa_seal a)) (outs_all k mc)).
Proof.
  intros OG H K calls cid mc k HC Hok Hs Ec. destruct (ledger_made H HC K calls Hok Hs) as (ls & L).
  pose proof L as (L1 & L2 & L3 & _). rewrite L1 in Ec. destruct (C27_only_imported OG H ls cid mc k Ec) as [A B]. split; [|exact B].
  intros a Ha. destruct (A a Ha) as ((call & ow & o' & Hi & Hm & Hr) & Hl). split; [|apply (ledger_alive H K calls ls _ L), Hl].
  destruct (proj1 (L3 cid ow o')) as (o & x & Ht & ->); [eauto|]. exists ow, o, x. split; [exact Ht|apply reveals_gives, Hr].
Qed.

(** Nothing else is reported if some of the calls failed: *)
Theorem C73_nothing_invented : forall (OG : OrdKey GlobalOut) H K calls cid mc k,
  collision_free H -> (forall c, In c calls -> ledger_call_ok H c) ->
  contract_state (sk_state (stock_after H K sk_empty calls)) cid = Ok mc ->
  (exists c r, In (SkAccept c r) calls /\ cid = op_id H (c_genesis c)) /\
  (forall a, In a (outs_all k mc) -> exists ow o x, brought H calls cid ow o x /\ gives H o x ow k a) /\
  (forall ty vals ord d, global_values mc ty = Some vals -> In (ord, d) vals ->
     exists ow o x go, brought H calls cid ow o x /\ shows H o ow ty go d).
Proof.
  intros OG H K calls cid mc k HC Hok Ec. destruct (ledger_brought H HC K calls Hok) as (ls & L1 & L2).
  split. { destruct (after_moved H K calls sk_empty) as (_ & (l0 & E0 & P0) & _). rewrite E0 in Ec.
    destruct (proj1 (C27_known_contracts OG H l0 cid) (ex_intro _ mc Ec)) as (c' & r & Hc & ->).
    destruct (P0 _ Hc) as (call & s0 & Hin & Hs). destruct call as [c r0|f r0|x|x|r0 after|]; cbn [state_of] in Hs; try contradiction; try discriminate.
    - destruct Hs as (c2 & Er & Eq). injection Eq as <- <-. exists c, r. split; [exact Hin|].
      destruct (Hok _ Hin) as (_ & Mt & Mo). destruct (resolved_rel H _ c c' HC Mt Mo Er) as [-> _]. reflexivity.
    - destruct Hs as (p & _ & Eq). discriminate. }
  rewrite L1 in Ec. split.
  - intros a Ha. destruct (proj1 (C27_only_imported OG H ls cid mc k Ec) a Ha) as ((call & ow & o' & Hi & Hm & Hr) & _).
    destruct (L2 _ _ _ _ Hi Hm) as (o & x & Hb & ->). exists ow, o, x. split; [exact Hb|apply reveals_gives, Hr].
  - intros ty vals ord d Ev Hd. destruct (proj1 (C28_global_state_partial OG H ls cid mc ty vals Ec Ev) ord d Hd) as (call & ow & o' & go & Hi & Hm & Hsh & _).
    destruct (L2 _ _ _ _ Hi Hm) as (o & x & Hb & ->). exists ow, o, x, go. split; [exact Hb|exact (proj1 (shows_resolved _ _ _ _ _ _ _) Hsh)].
Qed.

(** And all of these are reported, if no operation was brought under two witnesses. *)
Theorem C73_ledger_partial : forall (OG : OrdKey GlobalOut) H K calls cid mc k a,
  collision_free H -> (forall c, In c calls -> ledger_call_ok H c) -> all_calls_succeed H K sk_empty calls ->
  told_once H calls ->
  contract_state (sk_state (stock_after H K sk_empty calls)) cid = Ok mc ->
  (In a (outs_all k mc) <->
   (exists ow o x, told H calls cid ow o x /\ gives H o x ow k a) /\ alive calls (oa_witness a)).
Proof.
  intros OG H K calls cid mc k a HC Hok Hs Ho Ec. destruct (ledger_made H HC K calls Hok Hs) as (ls & L).
  pose proof L as (L1 & L2 & L3 & _). rewrite L1 in Ec.
  rewrite (C27_allocations_partial OG H ls cid mc k a HC (ledger_sorted H K _ _ Hok L) L2 (ledger_one H K _ _ L Ho) Ec).
  rewrite (ledger_alive H K calls ls _ L). split.
  - intros ((call & ow & o' & Hi & Hm & Hr) & Hl). split; [|exact Hl].
    destruct (proj1 (L3 cid ow o')) as (o & x & Ht & ->); [eauto|]. exists ow, o, x. split; [exact Ht|apply reveals_gives, Hr].
  - intros ((ow & o & x & Ht & Hg) & Hl). split; [|exact Hl].
    destruct (proj2 (L3 cid ow (resolved H x o))) as (sc & Hi & Hm); [eauto|]. exists sc, ow, (resolved H x o).
    split; [exact Hi|]. split; [exact Hm|apply reveals_gives, Hg].
Qed.

(** The same of global state: what is reported was brought, and as much is reported as the
    schema allows. *)
Theorem C73_globals_partial : forall (OG : OrdKey GlobalOut) H K calls cid mc ty vals,
  let s := sk_state (stock_after H K sk_empty calls) in
  collision_free H -> (forall c, In c calls -> ledger_call_ok H c) -> all_calls_succeed H K sk_empty calls ->
  contract_state s cid = Ok mc -> global_values mc ty = Some vals ->
  (forall ord d, In (ord, d) vals -> exists ow o x go, told H calls cid ow o x /\ shows H o ow ty go d /\ placed s go ord) /\
  exists limit,
    (exists c r, In (SkAccept c r) calls /\ cid = op_id H (c_genesis c) /\ In (ty, limit) (sch_globals (c_schema c))) /\
    forall places, NoDup places ->
    (forall go, In go places <-> exists ow o x d, told H calls cid ow o x /\ shows H o ow ty go d) ->
    len vals = N.min limit (len places) /\
    (len places <= limit -> forall ow o x go d, told H calls cid ow o x -> shows H o ow ty go d ->
       exists ord, placed s go ord /\ In (ord, d) vals).
Proof.
  intros OG H K calls cid mc ty vals s HC Hok Hs Ec Ev. destruct (ledger_made H HC K calls Hok Hs) as (ls & L).
  pose proof L as (L1 & L2 & L3 & L4 & _). unfold s in *. rewrite L1 in *.
  destruct (C28_global_state_partial OG H ls cid mc ty vals Ec Ev) as (A & limit & (c & r & Hc & Hcid & Hl) & _ & B).
  specialize (B HC (ledger_sorted H K _ _ Hok L) L2). split.
  - intros ord d Hd. destruct (A ord d Hd) as (call & ow & o' & go & Hi & Hm & Hsh & Hp).
    destruct (proj1 (L3 cid ow o')) as (o & x & Ht & ->); [eauto|]. exists ow, o, x, go.
    split; [exact Ht|]. split; [exact (proj1 (shows_resolved _ _ _ _ _ _ _) Hsh)|exact Hp].
  - exists limit. split.
    { destruct (proj1 (L4 (fun g sc => cid = op_id H g /\ In (ty, limit) (sch_globals sc)))) as (c0 & r0 & H0 & H1); [eauto|]. eauto. }
    intros places Nd Hpl. destruct (B places Nd) as [B1 B2].
    { intros go. rewrite Hpl. split.
      - intros (ow & o & x & d & Ht & Hsh). destruct (proj2 (L3 cid ow (resolved H x o))) as (sc & Hi & Hm); [eauto|].
        exists sc, ow, (resolved H x o), d. split; [exact Hi|]. split; [exact Hm|exact (proj2 (shows_resolved _ _ _ _ _ _ _) Hsh)].
      - intros (sc & ow & o' & d & Hi & Hm & Hsh). destruct (proj1 (L3 cid ow o')) as (o & x & Ht & ->); [eauto|].
        exists ow, o, x, d. split; [exact Ht|exact (proj1 (shows_resolved _ _ _ _ _ _ _) Hsh)]. }
    split; [exact B1|]. intros Hle ow o x go d Ht Hsh. destruct (proj2 (L3 cid ow (resolved H x o))) as (sc & Hi & Hm); [eauto|].
    apply (B2 Hle sc ow (resolved H x o) go d Hi Hm). exact (proj2 (shows_resolved _ _ _ _ _ _ _) Hsh).
Qed.

(** ** C70 for stocks *)

(** What is unspent adds up to no more than was issued, whichever valid data the calls brought. *)
Theorem C70_stock_no_inflation_partial : forall (OG : OrdKey GlobalOut) H K calls cid mc ty ops worth (issued : N -> N),
  collision_free H -> (forall c, In c calls -> ledger_call_ok H c) -> all_calls_succeed H K sk_empty calls ->
  contract_state (sk_state (stock_after H K sk_empty calls)) cid = Ok mc ->
  lists_told H calls cid ops -> one_alive H calls cid -> tells_worth H calls cid ty worth ->
  valid_supply H ops ty worth (fun o => issued (op_id H o)) ->
  total_of (unspent ops ty (outs_all KFungible mc)) <= list_sum (map (fun o => issued (op_id H o)) ops).
Proof.
  intros OG H K calls cid mc ty ops worth issued HC Hok Hs Ec En Hw Ht Hv.
  destruct (ledger_made H HC K calls Hok Hs) as (ls & L). pose proof L as (L1 & _). rewrite L1 in Ec.
  destruct (Forall2_exists (seen_op H calls cid) ops) as (ops' & F).
  { intros o Ho. destruct En as (_ & En & _). destruct (En o Ho) as (ow & x & Hx). exists (resolved H x o), ow, x. auto. }
  rewrite <- (lift_unspent H calls cid ty _ _ _ F), <- (lift_issued H calls cid _ _ issued F).
  apply (C70_no_inflation_partial OG H ls cid mc ty ops' worth _ HC (ledger_sorted H K _ _ Hok L) Ec
    (lift_enum H K _ _ L cid _ _ F En) (lift_one H K _ _ L cid Hw) (lift_truth H K _ _ L cid ty _ Ht) (lift_valid H calls cid ty _ _ _ _ F En Hv)).
Qed.

(** Where all seals are in the open or ours and nothing is burnt, to just that. *)
Theorem C70_stock_supply_partial : forall (OG : OrdKey GlobalOut) H K calls cid mc ty ops worth (issued : N -> N),
  collision_free H -> (forall c, In c calls -> ledger_call_ok H c) -> all_calls_succeed H K sk_empty calls ->
  told_once H calls ->
  contract_state (sk_state (stock_after H K sk_empty calls)) cid = Ok mc ->
  lists_told H calls cid ops -> one_alive H calls cid -> tells_worth H calls cid ty worth ->
  valid_supply H ops ty worth (fun o => issued (op_id H o)) ->
  (forall o, In o ops -> all_seen H calls cid ty o /\
     worth_of worth (amounts_of H o ty) = worth_of worth (spent_of o ty) + issued (op_id H o)) ->
  total_of (unspent ops ty (outs_all KFungible mc)) = list_sum (map (fun o => issued (op_id H o)) ops).
Proof.
  intros OG H K calls cid mc ty ops worth issued HC Hok Hs Ho Ec En Hw Ht Hv Hx.
  destruct (ledger_made H HC K calls Hok Hs) as (ls & L). pose proof L as (L1 & L2 & _). rewrite L1 in Ec.
  destruct (Forall2_exists (fun o o' => exists ow x, (told_alive H calls cid ow o x /\
     forall ta a, In (ty, ta) (op_assigns o) -> In a (ta_list ta) -> exists seal st, seen_as H x a seal st) /\ o' = resolved H x o) ops) as (ops' & F1).
  { intros o Hin. destruct (Hx o Hin) as ((ow & x & Hx1) & _). exists (resolved H x o), ow, x. auto. }
  assert (F : Forall2 (seen_op H calls cid) ops ops').
  { eapply Forall2_weaken; [|exact F1]. intros o o' (ow & x & (A & _) & B). exists ow, x. auto. }
  rewrite <- (lift_unspent H calls cid ty _ _ _ F), <- (lift_issued H calls cid _ _ issued F).
  apply (C70_supply_partial OG H ls cid mc ty ops' worth _ HC (ledger_sorted H K _ _ Hok L) L2 (ledger_one H K _ _ L Ho) Ec
    (lift_enum H K _ _ L cid _ _ F En) (lift_one H K _ _ L cid Hw) (lift_truth H K _ _ L cid ty _ Ht) (lift_valid H calls cid ty _ _ _ _ F En Hv)).
  apply (lift_exact H calls cid ty _ _ _ _ F1). intros o Hin. apply Hx, Hin.
Qed.

(** *** The contract of C70, in a consignment paying 40 of 100 to a seal stored before *)

Definition lg_pay : Operation := sp_op OpTransition [{| oo_op := sp_cid; oo_ty := 4; oo_no := 0 |}]
  [Revealed (cn_seal 71 0) (RAmount 60 0 0); ConfidentialSeal cn_secret (RAmount 40 0 0)].
Definition lg_id : N := op_id bit_hashes lg_pay.
Definition lg_bundle : Bundle := cn_bundle bit_hashes [lg_pay].
Definition lg_cons (txid : N) : Consignment :=
  {| c_transfer := true; c_terminals := [(bundle_id bit_hashes lg_bundle, cn_secret)]; c_genesis := sp_genesis; c_extensions := [];
     c_bundles := [cn_wb txid lg_bundle];
     c_schema := {| sch_id := 0; sch_globals := []; sch_libs := []; sch_types := [] |};
     c_ifaces := []; c_supplements := []; c_types := []; c_scripts := []; c_attachments := []; c_signatures := [] |}.
Definition lg_calls (ws : list N) (r : Resolver) : list StockCall :=
  SkSeal ex_secret :: map (fun w => SkAccept (lg_cons w) st_pending) ws ++ [SkUpdate r 0].
Definition lg_ops : list Operation := [sp_genesis; lg_pay].
Definition lg_worth (x : Opout) : N :=
  if oo_op x =? sp_cid then 100 else if oo_no x =? 0 then 60 else 40.
Definition lg_issued (id : N) : N := if id =? sp_cid then 100 else 0.

Lemma lg_differ : lg_id <> sp_cid.
Proof. vm_compute. discriminate. Qed.
Lemma lg_told ws r cid ow o x : told bit_hashes (lg_calls ws r) cid ow o x ->
  cid = sp_cid /\ ((ow = OWGenesis /\ o = sp_genesis /\ x = None) \/
                   (o = lg_pay /\ x = Some ex_secret /\ exists w, In w ws /\ ow = OWTransition (st_w w) 3)).
Proof.
  intros (bf & call & af & term & E & Hs & Ho).
  assert (Hc : call = SkSeal ex_secret \/ (exists w, In w ws /\ call = SkAccept (lg_cons w) st_pending) \/ call = SkUpdate r 0).
  { assert (Hin : In call (lg_calls ws r)) by (rewrite E; apply in_or_app; right; left; reflexivity).
    destruct Hin as [Hin|Hin]; [auto|]. apply in_app_or in Hin as [Hin|[Hin|[]]]; [|auto].
    apply in_map_iff in Hin as (w & <- & Hw). eauto. }
  destruct Hc as [->|[(w & Hw & ->)| ->]]; [destruct Hs| |destruct Hs].
  assert (Hb : In (SkSeal ex_secret) bf).
  { destruct bf as [|c bf]; cbn [app] in E; unfold lg_calls in E; [discriminate E|]. left. congruence. }
  destruct Hs as (-> & [(-> & -> & ->)|[(wb & b & [<-|[]] & [<-|[]] & [<-|[]] & -> & ->)|(w' & [] & _)]]).
  - split; [reflexivity|]. left. split; [reflexivity|]. split; [reflexivity|]. destruct x as [x|]; [destruct Ho as [Ho _]; discriminate Ho|reflexivity].
  - split; [reflexivity|]. right. split; [reflexivity|]. split; [|exists w; auto].
    assert (Em : mget (bundle_id bit_hashes lg_bundle) (c_terminals (lg_cons w)) = Some (h_seal bit_hashes ex_secret)).
    { cbn [c_terminals lg_cons mget]. rewrite keqb_refl. reflexivity. }
    match type of Ho with opens _ _ ?t _ => change t with (mget (bundle_id bit_hashes lg_bundle) (c_terminals (lg_cons w))) in Ho end. rewrite Em in Ho. destruct x as [x|].
    + destruct Ho as [Ho _]. apply Some_inj in Ho. f_equal. symmetry. apply bit_collision_free, Ho.
    + exfalso. exact (Ho _ Hb eq_refl).
Qed.
Lemma lg_told_genesis w ws r : told bit_hashes (lg_calls (w :: ws) r) sp_cid OWGenesis sp_genesis None.
Proof.
  exists [SkSeal ex_secret], (SkAccept (lg_cons w) st_pending), (map (fun w => SkAccept (lg_cons w) st_pending) ws ++ [SkUpdate r 0]), None.
  split; [reflexivity|]. split; [split; [reflexivity|auto]|]. intros s _. discriminate.
Qed.
Lemma lg_told_pay w ws r : In w ws -> told bit_hashes (lg_calls ws r) sp_cid (OWTransition (st_w w) 3) lg_pay (Some ex_secret).
Proof.
  intros Hw. apply in_split in Hw as (l1 & l2 & ->). unfold lg_calls. rewrite map_app. cbn [map].
  exists (SkSeal ex_secret :: map (fun w => SkAccept (lg_cons w) st_pending) l1), (SkAccept (lg_cons w) st_pending),
    (map (fun w => SkAccept (lg_cons w) st_pending) l2 ++ [SkUpdate r 0]), (Some (h_seal bit_hashes ex_secret)).
  split; [rewrite <- app_assoc; reflexivity|]. split; [|split; [reflexivity|left; reflexivity]].
  split; [reflexivity|]. right. left. exists (cn_wb w lg_bundle), lg_bundle. split; [left; reflexivity|]. split; [left; reflexivity|].
  split; [left; reflexivity|]. split; [reflexivity|]. cbn [c_terminals lg_cons mget]. rewrite keqb_refl. reflexivity.
Qed.
Lemma lg_ok ws r : forallb (fun w => cons_okb bit_hashes (lg_cons w)) ws = true ->
  forall c, In c (lg_calls ws r) -> ledger_call_ok bit_hashes c.
Proof.
  intros Hb c [<-|Hc]; [split; exact Logic.I|]. apply in_app_or in Hc as [Hc|[<-|[]]]; [|split; exact Logic.I].
  apply in_map_iff in Hc as (w & <- & Hw). rewrite forallb_forall in Hb. split; [apply cons_okb_ok, Hb, Hw|].
  split; [repeat constructor|]. intros wb [<-|[]]. reflexivity.
Qed.
Definition lg_mined : Resolver := fun _ => Some (Mined 5 0).

(** The hypotheses hold; three allocations are reported, two are unspent and have 100. *)
Example C73_example : forall OG : OrdKey GlobalOut, let calls := lg_calls [8] lg_mined in
  collision_free bit_hashes /\ (forall c, In c calls -> ledger_call_ok bit_hashes c) /\
  all_calls_succeed bit_hashes cn_merkle sk_empty calls /\ told_once bit_hashes calls /\
  status calls (st_w 8) = Some (Mined 5 0) /\
  (exists ow o x a, told bit_hashes calls sp_cid ow o x /\ gives bit_hashes o x ow KFungible a /\
     oa_state a = RAmount 40 0 0 /\ oa_seal a = {| os_layer := Bitcoin; os_method := TapretFirst; os_txid := 8; os_vout := 1 |}) /\
  lists_told bit_hashes calls sp_cid lg_ops /\ one_alive bit_hashes calls sp_cid /\ tells_worth bit_hashes calls sp_cid 4 lg_worth /\
  valid_supply bit_hashes lg_ops 4 lg_worth (fun o => lg_issued (op_id bit_hashes o)) /\
  (forall o, In o lg_ops -> all_seen bit_hashes calls sp_cid 4 o /\
     worth_of lg_worth (amounts_of bit_hashes o 4) = worth_of lg_worth (spent_of o 4) + lg_issued (op_id bit_hashes o)) /\
  exists mc, contract_state (sk_state (stock_after bit_hashes cn_merkle sk_empty calls)) sp_cid = Ok mc /\
    length (outs_all KFungible mc) = 3%nat /\ total_of (unspent lg_ops 4 (outs_all KFungible mc)) = 100 /\
    list_sum (map (fun o => lg_issued (op_id bit_hashes o)) lg_ops) = 100.
Proof.
  intros OG calls. split; [exact bit_collision_free|]. split; [apply lg_ok; vm_compute; reflexivity|].
  assert (St : status calls (st_w 8) = Some (Mined 5 0)) by (vm_compute; reflexivity).
  assert (Al : alive calls (Some (st_w 8))) by (exists (Mined 5 0); split; [exact St|discriminate]).
  assert (W : forall cid ow ow' o o' x x', told bit_hashes calls cid ow o x -> told bit_hashes calls cid ow' o' x' ->
    op_id bit_hashes o = op_id bit_hashes o' -> op_witness ow = op_witness ow').
  { intros cid ow ow' o o' x x' Ht Ht' E.
    destruct (lg_told _ _ _ _ _ _ Ht) as [_ [(-> & -> & _)|(-> & _ & w & [<-|[]] & ->)]];
      destruct (lg_told _ _ _ _ _ _ Ht') as [_ [(-> & -> & _)|(-> & _ & w & [<-|[]] & ->)]]; try reflexivity; exfalso; apply lg_differ;
      [symmetry|]; exact E. }
  assert (Wg : lg_worth {| oo_op := sp_cid; oo_ty := 4; oo_no := 0 |} = 100) by (unfold lg_worth; cbn [oo_op]; rewrite N.eqb_refl; reflexivity).
  assert (Wp : forall n, lg_worth {| oo_op := lg_id; oo_ty := 4; oo_no := n |} = if n =? 0 then 60 else 40).
  { intros n. unfold lg_worth. cbn [oo_op oo_no]. destruct (lg_id =? sp_cid) eqn:E; [|reflexivity]. apply N.eqb_eq in E. destruct (lg_differ E). }
  assert (Tg : told_alive bit_hashes calls sp_cid OWGenesis sp_genesis None) by (split; [apply lg_told_genesis|exact Logic.I]).
  assert (Tp : told_alive bit_hashes calls sp_cid (OWTransition (st_w 8) 3) lg_pay (Some ex_secret)).
  { split; [apply lg_told_pay; left; reflexivity|exact Al]. }
  assert (B : forall o, In o lg_ops ->
    worth_of lg_worth (amounts_of bit_hashes o 4) = worth_of lg_worth (spent_of o 4) + lg_issued (op_id bit_hashes o)).
  { intros o [<-|[<-|[]]].
    - change (amounts_of bit_hashes sp_genesis 4) with [{| oo_op := sp_cid; oo_ty := 4; oo_no := 0 |}].
      change (spent_of sp_genesis 4) with (@nil Opout). change (op_id bit_hashes sp_genesis) with sp_cid.
      unfold worth_of. cbn [map]. rewrite Wg. unfold lg_issued. rewrite N.eqb_refl. reflexivity.
    - change (amounts_of bit_hashes lg_pay 4) with [{| oo_op := lg_id; oo_ty := 4; oo_no := 0 |}; {| oo_op := lg_id; oo_ty := 4; oo_no := 1 |}].
      change (spent_of lg_pay 4) with [{| oo_op := sp_cid; oo_ty := 4; oo_no := 0 |}]. change (op_id bit_hashes lg_pay) with lg_id.
      unfold worth_of. cbn [map]. rewrite !Wp, Wg. unfold lg_issued. destruct (lg_id =? sp_cid) eqn:E; [|reflexivity].
      apply N.eqb_eq in E. destruct (lg_differ E). }
  split. { split; [vm_compute; reflexivity|]. split; [vm_compute; reflexivity|]. split; [vm_compute; reflexivity|exact Logic.I]. }
  split; [intros cid ow ow' o o' x x' Ht Ht' E; left; eapply W; eassumption|]. split; [exact St|].
  split. { exists (OWTransition (st_w 8) 3), lg_pay, (Some ex_secret).
    exists {| oa_opout := {| oo_op := lg_id; oo_ty := 4; oo_no := 1 |}; oa_seal := {| os_layer := Bitcoin; os_method := TapretFirst; os_txid := 8; os_vout := 1 |};
              oa_state := RAmount 40 0 0; oa_witness := Some (st_w 8) |}.
    split; [apply Tp|]. split; [|auto]. eexists 4, _, 1%nat, _, ex_secret, _. split; [left; reflexivity|]. split; [reflexivity|].
    split; [reflexivity|]. split; [right; split; reflexivity|]. split; [repeat split|]. split; [reflexivity|]. split; reflexivity. }
  split. { split; [|split].
    - cbn [lg_ops map]. constructor; [|constructor; [intros []|constructor]]. intros [E|[]]. apply lg_differ. exact E.
    - intros o [<-|[<-|[]]]; eauto.
    - intros ow o x (Ht & _). destruct (lg_told _ _ _ _ _ _ Ht) as [_ [(_ & -> & _)|(-> & _)]]; [left|right; left]; reflexivity. }
  split; [intros ow ow' o o' x x' (Ht & _) (Ht' & _) E; eapply W; eassumption|].
  split. { intros ow o x ta no a st (Ht & _) Hta _ Hn Hr.
    destruct (lg_told _ _ _ _ _ _ Ht) as [_ [(_ & -> & _)|(-> & _)]]; destruct Hta as [E|[]]; apply (f_equal snd) in E; cbn [snd] in E; subst ta; cbn [ta_list] in Hn.
    - destruct no as [|[|no]]; cbn [nth_error] in Hn; try discriminate. apply Some_inj in Hn. subst a.
      cbn [revealed_state] in Hr. apply Some_inj in Hr. subst st. exact Wg.
    - destruct no as [|[|[|no]]]; cbn [nth_error] in Hn; try discriminate; apply Some_inj in Hn; subst a;
        cbn [revealed_state] in Hr; apply Some_inj in Hr; subst st; fold lg_id; rewrite Wp; reflexivity. }
  split. { split; [intros o Ho; rewrite (B o Ho); lia|]. split.
    - intros o x [<-|[<-|[]]]; [intros []|]. intros [<-|[]]. exists sp_genesis. split; left; reflexivity.
    - split; [|intros o [<-|[<-|[]]]; repeat constructor; intros []].
      intros o o' x [<-|[<-|[]]] [<-|[<-|[]]]; [reflexivity|intros []|intros _ []|reflexivity]. }
  split. { intros o Ho. split; [|exact (B o Ho)]. destruct Ho as [<-|[<-|[]]].
    - exists OWGenesis, None. split; [exact Tg|]. intros ta a [E|[]]; apply (f_equal snd) in E; cbn [snd] in E; subst ta. intros [<-|[]].
      eexists. eexists. left. reflexivity.
    - exists (OWTransition (st_w 8) 3), (Some ex_secret). split; [exact Tp|]. intros ta a [E|[]]; apply (f_equal snd) in E; cbn [snd] in E; subst ta.
      intros [<-|[<-|[]]]; eexists; eexists; [left; reflexivity|right; split; reflexivity]. }
  eexists. split; [vm_compute; reflexivity|]. vm_compute. auto.
Qed.

(** An operation brought under two witnesses, the first of which is then archived: the
    allocation to a given outpoint is no more reported, though the second is mined. *)
Theorem C73_ledger_refuted : forall OG : OrdKey GlobalOut, ~ forall H K calls cid mc k a,
  collision_free H -> (forall c, In c calls -> ledger_call_ok H c) -> all_calls_succeed H K sk_empty calls ->
  contract_state (sk_state (stock_after H K sk_empty calls)) cid = Ok mc ->
  (exists ow o x, told H calls cid ow o x /\ gives H o x ow k a) -> alive calls (oa_witness a) -> In a (outs_all k mc).
Proof.
  intros OG Bad. set (calls := lg_calls [8; 9] st_reorg).
  assert (Hs : all_calls_succeed bit_hashes cn_merkle sk_empty calls).
  { split; [vm_compute; reflexivity|]. split; [vm_compute; reflexivity|]. split; [vm_compute; reflexivity|]. split; [vm_compute; reflexivity|exact Logic.I]. }
  set (a := {| oa_opout := {| oo_op := lg_id; oo_ty := 4; oo_no := 0 |}; oa_seal := {| os_layer := Bitcoin; os_method := TapretFirst; os_txid := 71; os_vout := 0 |};
              oa_state := RAmount 60 0 0; oa_witness := Some (st_w 9) |}).
  assert (E : exists mc, contract_state (sk_state (stock_after bit_hashes cn_merkle sk_empty calls)) sp_cid = Ok mc /\
    existsb (fun b => match oa_state b with RAmount 60 _ _ => true | _ => false end) (outs_all KFungible mc) = false).
  { eexists. split; [vm_compute; reflexivity|]. vm_compute. reflexivity. }
  destruct E as (mc & Ec & Hn).
  assert (Hin : In a (outs_all KFungible mc)).
  { apply (Bad bit_hashes cn_merkle calls sp_cid mc KFungible a bit_collision_free); [apply lg_ok; vm_compute; reflexivity|exact Hs|exact Ec| |].
    - exists (OWTransition (st_w 9) 3), lg_pay, (Some ex_secret). split; [apply lg_told_pay; right; left; reflexivity|].
      eexists 4, _, 0%nat, _, (cn_seal 71 0), _. split; [left; reflexivity|]. split; [reflexivity|]. split; [reflexivity|].
      split; [left; reflexivity|]. split; [repeat split|]. split; [reflexivity|]. split; reflexivity.
    - exists (Mined 3 0). split; [vm_compute; reflexivity|discriminate]. }
  assert (Hx : existsb (fun b => match oa_state b with RAmount 60 _ _ => true | _ => false end) (outs_all KFungible mc) = true).
  { apply existsb_exists. exists a. split; [exact Hin|reflexivity]. }
  congruence.
Qed.

Print Assumptions C73_contracts.
Print Assumptions C73_status.
Print Assumptions C73_only_told.
Print Assumptions C73_nothing_invented.
Print Assumptions C73_ledger_partial.
Print Assumptions C73_globals_partial.
Print Assumptions C73_ledger_refuted.
Print Assumptions C70_stock_no_inflation_partial.
Print Assumptions C70_stock_supply_partial.
