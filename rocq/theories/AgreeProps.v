(** * Two stocks which were told the same: property C74 *)
From Verif Require Import Base StM Core Ser ContainerModel PIndexModel StateModel StateSpec StateProps.
From Verif Require Import StashModel StashSpec StashProps StockModel StockAgain ConsignProps TransferProps.
From Verif Require Import SupplySpec SupplyProps LedgerSpec LedgerProofs LedgerProps AgreeSpec AgreeProofs.
Local Open Scope N_scope.

(** Two stocks to which the same was brought, with the same seals opened, and which have the
    same news of the witnesses, say the same of the contract. *)
Theorem C74_agree_partial : forall (OG : OrdKey GlobalOut) H K l l' cid,
  collision_free H ->
  (forall c, In c l -> ledger_call_ok H c) -> (forall c, In c l' -> ledger_call_ok H c) ->
  all_calls_succeed H K sk_empty l -> all_calls_succeed H K sk_empty l' -> told_once H l -> told_once H l' ->
  one_schema H (l ++ l') -> told_same H l l' cid -> (forall w, status l w = status l' w) ->
  agree_on (stock_after H K sk_empty l) (stock_after H K sk_empty l') cid.
Proof. intros OG H K l l' cid HC. exact (agree H HC K l l' cid). Qed.

(** The order of the calls does not matter and neither do repetitions, if secret seals are
    stored first, no operation comes under two witnesses, and the status of all witnesses is
    updated in the end. *)
Theorem C74_order_partial : forall (OG : OrdKey GlobalOut) H K l l' r cid,
  collision_free H -> (forall c, In c l -> ledger_call_ok H c) -> same_calls l l' ->
  all_calls_succeed H K sk_empty (l ++ [SkUpdate r 0]) -> all_calls_succeed H K sk_empty (l' ++ [SkUpdate r 0]) ->
  one_schema H l -> positive_calls l -> (forall w, r w <> None) ->
  seals_first l -> seals_first l' -> told_once H l ->
  agree_on (stock_after H K sk_empty (l ++ [SkUpdate r 0])) (stock_after H K sk_empty (l' ++ [SkUpdate r 0])) cid.
Proof.
  intros OG H K l l' r cid HC Hok Hsame Hs Hs' Hsch Hp Hr F F' Ho.
  assert (Hok' : forall c, In c l' -> ledger_call_ok H c) by (intros c Hc; apply Hok, Hsame, Hc).
  assert (Hp' : positive_calls l') by (intros c r' Hc; apply Hp, Hsame, Hc).
  assert (Hu : forall k, (forall c, In c k -> ledger_call_ok H c) -> forall c, In c (k ++ [SkUpdate r 0]) -> ledger_call_ok H c).
  { intros k Hk c Hc. apply in_app_or in Hc as [Hc|[<-|[]]]; [apply Hk, Hc|split; exact Logic.I]. }
  assert (Ht : forall ci ow o x, told H l ci ow o x <-> told H l' ci ow o x) by (intros ci; apply (told_same_set H l l' ci F F' Hsame)).
  refine (agree H HC K _ _ cid (Hu l Hok) (Hu l' Hok') Hs Hs' _ _ _ _ _).
  - intros ci ow ow' o o' x x' T T'. rewrite told_update in T, T'. exact (Ho ci ow ow' o o' x x' T T').
  - intros ci ow ow' o o' x x' T T'. rewrite told_update, <- Ht in T, T'. exact (Ho ci ow ow' o o' x x' T T').
  - assert (Hi : forall c r', In (SkAccept c r') ((l ++ [SkUpdate r 0]) ++ l' ++ [SkUpdate r 0]) -> In (SkAccept c r') l).
    { intros c r' Hc. apply in_app_or in Hc as [Hc|Hc]; apply in_app_or in Hc as [Hc|[Hc|[]]]; try discriminate; [exact Hc|apply Hsame, Hc]. }
    intros c r1 c' r2 Hc Hc'. exact (Hsch c r1 c' r2 (Hi _ _ Hc) (Hi _ _ Hc')).
  - intros ow o x. rewrite !told_update. apply Ht.
  - intros w. rewrite !status_fresh by assumption.
    apply all_succeed_snoc in Hs as [Hs _]. apply all_succeed_snoc in Hs' as [Hs' _].
    pose proof (status_known H HC K l w Hok Hs) as A. pose proof (status_known H HC K l' w Hok' Hs') as A'.
    assert (E : status l w <> None <-> status l' w <> None).
    { rewrite A, A'. split; intros (c & Hc & Ha); exists c; (split; [apply Hsame, Hc|exact Ha]). }
    destruct (status l w), (status l' w); try reflexivity; [destruct (proj1 E); [discriminate|reflexivity]|destruct (proj2 E); [discriminate|reflexivity]].
Qed.

(** *** The consignment of C73 and one with the genesis alone, twice and in another order *)

Definition ag_issue : Consignment :=
  {| c_transfer := false; c_terminals := []; c_genesis := sp_genesis; c_extensions := []; c_bundles := []; c_schema := c_schema (lg_cons 8);
     c_ifaces := []; c_supplements := []; c_types := []; c_scripts := []; c_attachments := []; c_signatures := [] |}.
Definition ag_other : Seal := cn_seal 72 1.
Definition ag_first : list StockCall :=
  [SkSeal ex_secret; SkSeal ag_other; SkAccept (lg_cons 8) st_pending; SkAccept ag_issue st_pending].
Definition ag_second : list StockCall :=
  [SkSeal ag_other; SkSeal ex_secret; SkAccept ag_issue st_pending; SkAccept (lg_cons 8) st_pending; SkAccept ag_issue st_pending].

Lemma ag_ok (l : list StockCall) : (forall c, In c l -> In c ag_first) -> forall c, In c l -> ledger_call_ok bit_hashes c.
Proof.
  intros Hl c Hc. destruct (Hl c Hc) as [<-|[<-|[<-|[<-|[]]]]]; try (split; exact Logic.I).
  - split; [apply cons_okb_ok; vm_compute; reflexivity|]. split; [repeat constructor|]. intros wb [<-|[]]. reflexivity.
  - split; [apply cons_okb_ok; vm_compute; reflexivity|]. split; [repeat constructor|]. intros wb [].
Qed.

Example C74_example : forall OG : OrdKey GlobalOut,
  collision_free bit_hashes /\ (forall c, In c ag_first -> ledger_call_ok bit_hashes c) /\ same_calls ag_first ag_second /\
  all_calls_succeed bit_hashes cn_merkle sk_empty (ag_first ++ [SkUpdate lg_mined 0]) /\
  all_calls_succeed bit_hashes cn_merkle sk_empty (ag_second ++ [SkUpdate lg_mined 0]) /\
  one_schema bit_hashes ag_first /\ positive_calls ag_first /\ (forall w, lg_mined w <> None) /\
  seals_first ag_first /\ seals_first ag_second /\ told_once bit_hashes ag_first /\
  exists mc, contract_state (sk_state (stock_after bit_hashes cn_merkle sk_empty (ag_second ++ [SkUpdate lg_mined 0]))) sp_cid = Ok mc /\
    length (outs_all KFungible mc) = 3%nat.
Proof.
  intros OG. split; [exact bit_collision_free|]. split; [apply ag_ok; auto|].
  split. { intros c. cbn [In ag_first ag_second]. tauto. }
  split. { repeat (split; [vm_compute; reflexivity|]). exact Logic.I. }
  split. { repeat (split; [vm_compute; reflexivity|]). exact Logic.I. }
  split. { intros c r c' r' Hc Hc' _.
    destruct Hc as [X|[X|[X|[X|[]]]]]; try discriminate; injection X as <- <-;
      destruct Hc' as [X|[X|[X|[X|[]]]]]; try discriminate; injection X as <- <-; reflexivity. }
  split. { intros c r Hc Hr w t.
    destruct Hc as [<-|[<-|[<-|[<-|[]]]]]; destruct Hr as [(y & X)|[(y & X)|(y & X)]]; try discriminate; injection X as <- <-; discriminate. }
  split; [discriminate|].
  assert (F1 : seals_first ag_first).
  { exists [SkSeal ex_secret; SkSeal ag_other], [SkAccept (lg_cons 8) st_pending; SkAccept ag_issue st_pending].
    split; [reflexivity|]. split; [intros c [<-|[<-|[]]]; eauto|]. intros s [X|[X|[]]]; discriminate. }
  split; [exact F1|].
  split. { exists [SkSeal ag_other; SkSeal ex_secret], [SkAccept ag_issue st_pending; SkAccept (lg_cons 8) st_pending; SkAccept ag_issue st_pending].
    split; [reflexivity|]. split; [intros c [<-|[<-|[]]]; eauto|]. intros s [X|[X|[X|[]]]]; discriminate. }
  split.
  { assert (T : forall cid ow o x, told bit_hashes ag_first cid ow o x ->
      (ow = OWGenesis /\ o = sp_genesis) \/ (o = lg_pay /\ ow = OWTransition (st_w 8) 3)).
    { intros cid ow o x Ht. apply (told_set bit_hashes ag_first F1) in Ht as (call & term & Hc & Hs & _).
      destruct Hc as [<-|[<-|[<-|[<-|[]]]]]; try (destruct Hs; fail).
      - destruct Hs as (_ & [(-> & -> & _)|[(wb & b & [<-|[]] & [<-|[]] & [<-|[]] & -> & _)|(w & [] & _)]]); auto.
      - destruct Hs as (_ & [(-> & -> & _)|[(wb & b & [] & _)|(w & [] & _)]]); auto. }
    intros cid ow ow' o o' x x' Ht Ht' E. left.
    destruct (T _ _ _ _ Ht) as [(-> & ->)|(-> & ->)]; destruct (T _ _ _ _ Ht') as [(-> & ->)|(-> & ->)]; try reflexivity; exfalso; apply lg_differ;
      [symmetry|]; exact E. }
  eexists. split; [vm_compute; reflexivity|]. vm_compute. reflexivity.
Qed.

(** A secret seal stored after the consignment paying to it: the payment is not reported. *)
Theorem C74_seal_order_refuted : forall OG : OrdKey GlobalOut, ~ forall H K l l' r cid,
  collision_free H -> (forall c, In c l -> ledger_call_ok H c) -> same_calls l l' ->
  all_calls_succeed H K sk_empty (l ++ [SkUpdate r 0]) -> all_calls_succeed H K sk_empty (l' ++ [SkUpdate r 0]) ->
  one_schema H l -> positive_calls l -> (forall w, r w <> None) -> told_once H l -> told_once H l' ->
  agree_on (stock_after H K sk_empty (l ++ [SkUpdate r 0])) (stock_after H K sk_empty (l' ++ [SkUpdate r 0])) cid.
Proof.
  intros OG Bad. set (l := [SkSeal ex_secret; SkAccept (lg_cons 8) st_pending]). set (l' := [SkAccept (lg_cons 8) st_pending; SkSeal ex_secret]).
  assert (T : forall k cid ow o x, told bit_hashes k cid ow o x -> (forall c, In c k -> In c l) ->
    (ow = OWGenesis /\ o = sp_genesis) \/ (o = lg_pay /\ ow = OWTransition (st_w 8) 3)).
  { intros k cid ow o x (bf & call & af & term & -> & Hs & _) Hk.
    assert (Hc : In call l) by (apply Hk, in_or_app; cbn; auto). destruct Hc as [<-|[<-|[]]]; [destruct Hs|].
    destruct Hs as (_ & [(-> & -> & _)|[(wb & b & [<-|[]] & [<-|[]] & [<-|[]] & -> & _)|(w & [] & _)]]); auto. }
  assert (O : forall k, (forall c, In c k -> In c l) -> told_once bit_hashes k).
  { intros k Hk cid ow ow' o o' x x' Ht Ht' E. left.
    destruct (T _ _ _ _ _ Ht Hk) as [(-> & ->)|(-> & ->)]; destruct (T _ _ _ _ _ Ht' Hk) as [(-> & ->)|(-> & ->)]; try reflexivity; exfalso; apply lg_differ;
      [symmetry|]; exact E. }
  assert (B : agree_on (stock_after bit_hashes cn_merkle sk_empty (l ++ [SkUpdate lg_mined 0])) (stock_after bit_hashes cn_merkle sk_empty (l' ++ [SkUpdate lg_mined 0])) sp_cid).
  { apply Bad.
    - exact bit_collision_free.
    - intros c Hc. apply (lg_ok [8] lg_mined); [vm_compute; reflexivity|]. unfold lg_calls. cbn [map app]. destruct Hc as [<-|[<-|[]]]; cbn; auto.
    - intros c. cbn [In l l']. tauto.
    - repeat (split; [vm_compute; reflexivity|]). exact Logic.I.
    - repeat (split; [vm_compute; reflexivity|]). exact Logic.I.
    - intros c r c' r' Hc Hc' _. destruct Hc as [X|[X|[]]]; try discriminate; injection X as <- <-. destruct Hc' as [X|[X|[]]]; try discriminate; injection X as <- <-. reflexivity.
    - intros c r Hc Hr w t. destruct Hc as [<-|[<-|[]]]; destruct Hr as [(y & X)|[(y & X)|(y & X)]]; try discriminate; injection X as <- <-; discriminate.
    - discriminate.
    - apply O. auto.
    - apply O. intros c [<-|[<-|[]]]; cbn; auto. }
  assert (E1 : exists mc, contract_state (sk_state (stock_after bit_hashes cn_merkle sk_empty (l ++ [SkUpdate lg_mined 0]))) sp_cid = Ok mc /\ length (outs_all KFungible mc) = 3%nat).
  { eexists. split; [vm_compute; reflexivity|]. vm_compute. reflexivity. }
  assert (E2 : exists mc, contract_state (sk_state (stock_after bit_hashes cn_merkle sk_empty (l' ++ [SkUpdate lg_mined 0]))) sp_cid = Ok mc /\ length (outs_all KFungible mc) = 2%nat).
  { eexists. split; [vm_compute; reflexivity|]. vm_compute. reflexivity. }
  destruct E1 as (m1 & E1 & N1), E2 as (m2 & E2 & N2). unfold agree_on in B. rewrite E1, E2 in B. apply Ok_inj in B. subst m2. congruence.
Qed.

(** An operation under two witnesses, one of which is archived: what is reported depends on
    which of the two came first. *)
Theorem C74_witness_order_refuted : forall OG : OrdKey GlobalOut, ~ forall H K l l' r cid,
  collision_free H -> (forall c, In c l -> ledger_call_ok H c) -> same_calls l l' ->
  all_calls_succeed H K sk_empty (l ++ [SkUpdate r 0]) -> all_calls_succeed H K sk_empty (l' ++ [SkUpdate r 0]) ->
  one_schema H l -> positive_calls l -> (forall w, r w <> None) -> seals_first l -> seals_first l' ->
  agree_on (stock_after H K sk_empty (l ++ [SkUpdate r 0])) (stock_after H K sk_empty (l' ++ [SkUpdate r 0])) cid.
Proof.
  intros OG Bad. set (a := SkAccept (lg_cons 8) st_pending). set (b := SkAccept (lg_cons 9) st_pending).
  set (l := [SkSeal ex_secret; a; b]). set (l' := [SkSeal ex_secret; b; a]).
  set (r := fun w : WitnessId => if keqb w (st_w 8) then Some Archived else Some (Mined 3 0)).
  assert (B : agree_on (stock_after bit_hashes cn_merkle sk_empty (l ++ [SkUpdate r 0])) (stock_after bit_hashes cn_merkle sk_empty (l' ++ [SkUpdate r 0])) sp_cid).
  { apply Bad.
    - exact bit_collision_free.
    - intros c Hc. apply (lg_ok [8; 9] lg_mined); [vm_compute; reflexivity|]. unfold lg_calls. cbn [map app]. destruct Hc as [<-|[<-|[<-|[]]]]; cbn; auto.
    - intros c. cbn [In l l']. tauto.
    - repeat (split; [vm_compute; reflexivity|]). exact Logic.I.
    - repeat (split; [vm_compute; reflexivity|]). exact Logic.I.
    - intros c r1 c' r2 Hc Hc' _. destruct Hc as [X|[X|[X|[]]]]; try discriminate; injection X as <- <-;
        destruct Hc' as [X|[X|[X|[]]]]; try discriminate; injection X as <- <-; reflexivity.
    - intros c r1 Hc Hr w t. destruct Hc as [<-|[<-|[<-|[]]]]; destruct Hr as [(y & X)|[(y & X)|(y & X)]]; try discriminate; injection X as <- <-; discriminate.
    - intros w. unfold r. destruct (keqb w (st_w 8)); discriminate.
    - exists [SkSeal ex_secret], [a; b]. split; [reflexivity|]. split; [intros c [<-|[]]; eauto|]. intros s [X|[X|[]]]; discriminate.
    - exists [SkSeal ex_secret], [b; a]. split; [reflexivity|]. split; [intros c [<-|[]]; eauto|]. intros s [X|[X|[]]]; discriminate. }
  assert (E1 : exists mc, contract_state (sk_state (stock_after bit_hashes cn_merkle sk_empty (l ++ [SkUpdate r 0]))) sp_cid = Ok mc /\ length (outs_all KFungible mc) = 2%nat).
  { eexists. split; [vm_compute; reflexivity|]. vm_compute. reflexivity. }
  assert (E2 : exists mc, contract_state (sk_state (stock_after bit_hashes cn_merkle sk_empty (l' ++ [SkUpdate r 0]))) sp_cid = Ok mc /\ length (outs_all KFungible mc) = 3%nat).
  { eexists. split; [vm_compute; reflexivity|]. vm_compute. reflexivity. }
  destruct E1 as (m1 & E1 & N1), E2 as (m2 & E2 & N2). unfold agree_on in B. rewrite E1, E2 in B. apply Ok_inj in B. subst m2. congruence.
Qed.

Print Assumptions C74_agree_partial.
Print Assumptions C74_order_partial.
Print Assumptions C74_seal_order_refuted.
Print Assumptions C74_witness_order_refuted.
