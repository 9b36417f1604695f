(** * Passing on what was received: proofs *)
From Verif Require Import Base StM Core MergeModel MergeSpec MergeProofs ContainerModel ContainerSpec ContainerProofs.
From Verif Require Import PIndexModel PIndexSpec PIndexProofs StateModel StateSpec StateProofs.
From Verif Require Import StashModel StashSpec StashProofs StashAgain StockModel StockProofs StockAgain.
From Verif Require Import ConsignModel ConsignSpec ConsignProofs ConsignAccept ConsignProps TransferProofs ExportSpec ExportProofs RelaySpec.
From Verif Require QueryProofs QueryMore.
Local Open Scope N_scope.

(** ** A receiver with seals only *)

Lemma only_seals_blank {OG : OrdKey GlobalOut} H K l : only_seals l ->
  exists seals, stock_after H K sk_empty l = {| sk_stash := with_seals seals st_empty; sk_state := ms_empty; sk_index := mi_empty |} /\
    stash_sorted (with_seals seals st_empty).
Proof.
  intros Ol. unfold stock_after.
  assert (G : forall s, (exists seals, s = {| sk_stash := with_seals seals st_empty; sk_state := ms_empty; sk_index := mi_empty |} /\ stash_sorted (with_seals seals st_empty)) ->
    exists seals, fold_left (fun s c => fst (stock_body H K c s)) l s = {| sk_stash := with_seals seals st_empty; sk_state := ms_empty; sk_index := mi_empty |} /\ stash_sorted (with_seals seals st_empty)).
  { induction l as [|c l IH]; intros s Hs; [exact Hs|]. cbn [fold_left]. apply IH; [intros d Hd; apply Ol; right; exact Hd|].
    destruct Hs as (seals & -> & So). destruct (Ol c (or_introl eq_refl)) as [->|(x & ->)]; cbn [stock_body].
    - exists seals. split; [reflexivity|exact So].
    - pose proof (sorted_call H K (ShSeal x) _ So) as So'. cbn [stash_call] in So'. revert So'.
      unfold bind, on_stash. cbn [sk_stash]. unfold store_secret_seal, add_secret_seal, bind, get, grown, lift, put, ret.
      destruct (cpush _ _ _) as [l'|]; cbn [ok_or fst]; intros So'; eexists; (split; [reflexivity|exact So']). }
  apply G. exists []. split; [reflexivity|apply sorted_empty].
Qed.

(** ** What a call leaves alone *)

Definition keeps {A B} (f : MemStash -> B) (m : STM A) : Prop := forall s s' r, m s = (s', r) -> f s' = f s.

Lemma keeps_ret {A B} (f : MemStash -> B) (a : A) : keeps f (ret a).
Proof. intros s s' r [= <- _]. reflexivity. Qed.
Lemma keeps_lift {A B} (f : MemStash -> B) (x : result StashError A) : keeps f (lift x).
Proof. intros s s' r [= <- _]. reflexivity. Qed.
Lemma keeps_get {B} (f : MemStash -> B) : keeps f (get : STM MemStash).
Proof. intros s s' r [= <- _]. reflexivity. Qed.
Lemma keeps_panic {A B} (f : MemStash -> B) : keeps f (panic : STM A).
Proof. intros s s' r [= <- _]. reflexivity. Qed.
Lemma keeps_bind {A A' B} (f : MemStash -> B) (m : STM A) (k : A -> STM A') : keeps f m -> (forall a, keeps f (k a)) -> keeps f (bind m k).
Proof.
  intros Km Kk s s' r. unfold bind. destruct (m s) as [s1 [a|e|]] eqn:E; apply Km in E.
  - intros E2. apply Kk in E2. congruence.
  - intros [= <- _]. exact E.
  - intros [= <- _]. exact E.
Qed.
Lemma keeps_mfor {A B} (f : MemStash -> B) (g : A -> STM unit) l : (forall a, In a l -> keeps f (g a)) -> keeps f (mfor g l).
Proof.
  induction l as [|a l IH]; intros Hg; [apply keeps_ret|]. cbn [mfor]. apply keeps_bind; [apply Hg; left; reflexivity|].
  intros _. apply IH. intros x Hx. apply Hg. right. exact Hx.
Qed.
Lemma keeps_update {X A B} (f : MemStash -> B) (o : MemStash -> option X) (w : X -> MemStash -> MemStash) (v : MemStash -> A) :
  (forall x s, f (w x s) = f s) -> keeps f (do! s <- get ;; do! m <- grown (o s) ;; put (w m s) ;;! ret (v s)).
Proof.
  intros Hw s s' r. unfold bind, get, grown, lift, put, ret. destruct (o s); cbn [ok_or]; intros [= <- _]; [apply Hw|reflexivity].
Qed.

(** The definitions of a stash *)
Definition defs (s : MemStash) := (st_schemata s, st_ifaces s, st_suppl s, (st_types s, st_libs s, st_sigs s)).

Section Kept.
Context (H : Hashes) (K : Merkle).

Lemma keeps_genesis g : keeps defs (consume_genesis H g).
Proof.
  unfold consume_genesis. apply keeps_bind; [apply keeps_get|]. intros s. apply keeps_bind.
  - destruct (mget _ _); [apply keeps_lift|apply keeps_ret].
  - intros g'. apply keeps_bind; [|intros; apply keeps_ret]. unfold replace_genesis. apply (keeps_update defs _ with_geneses). reflexivity.
Qed.
Lemma keeps_extension e : keeps defs (consume_extension H e).
Proof.
  unfold consume_extension. apply keeps_bind; [apply keeps_get|]. intros s. apply keeps_bind.
  - destruct (mget _ _); [apply keeps_lift|apply keeps_ret].
  - intros g'. apply keeps_bind; [|intros; apply keeps_ret]. unfold replace_extension. apply (keeps_update defs _ with_extensions). reflexivity.
Qed.
Lemma keeps_bundle {B} (f : MemStash -> B) b : (forall x s, f (with_bundles x s) = f s) -> keeps f (consume_bundle H b).
Proof.
  intros Hf. unfold consume_bundle. apply keeps_bind; [apply keeps_get|]. intros s. apply keeps_bind.
  - destruct (mget _ _); [apply keeps_lift|apply keeps_ret].
  - intros g'. unfold replace_bundle. apply (keeps_update f _ with_bundles). exact Hf.
Qed.
Lemma keeps_witness {B} (f : MemStash -> B) w : (forall x s, f (with_witnesses x s) = f s) -> keeps f (consume_witness w).
Proof.
  intros Hf. unfold consume_witness. apply keeps_bind; [apply keeps_get|]. intros s. apply keeps_bind.
  - destruct (mget _ _); [|apply keeps_ret]. apply keeps_bind; [apply keeps_lift|]. intros p. apply keeps_bind; [apply keeps_lift|]. intros a. apply keeps_ret.
  - intros g'. unfold replace_witness. apply (keeps_update f _ with_witnesses). exact Hf.
Qed.
Lemma keeps_witness_bundle {B} (f : MemStash -> B) cid wb : (forall x s, f (with_bundles x s) = f s) -> (forall x s, f (with_witnesses x s) = f s) ->
  keeps f (consume_witness_bundle H K cid wb).
Proof.
  intros Hb Hw. unfold consume_witness_bundle. apply keeps_bind.
  - induction (anchored_iter (wb_bundles wb)) as [|p l IH]; cbn [anchor_all]; [apply keeps_ret|]. apply keeps_bind.
    + unfold anchor_bundle. cbv zeta. apply keeps_bind; [apply keeps_bundle, Hb|]. intros _. apply keeps_bind; [apply keeps_lift|]. intros. apply keeps_ret.
    + intros a. apply keeps_bind; [exact IH|]. intros r. apply keeps_ret.
  - intros l. apply keeps_bind.
    + unfold anchors_of. destruct (rev l) as [|[[] ?] [|[[] ?] ?]]; apply keeps_ret || apply keeps_panic.
    + intros a. apply keeps_bind; [apply keeps_witness, Hw|]. intros. apply keeps_ret.
Qed.
Lemma keeps_attachment {B} (f : MemStash -> B) p : (forall x s, f (with_attachments x s) = f s) -> keeps f (replace_attachment (fst p) (snd p) ;;! ret tt).
Proof.
  intros Hf. apply keeps_bind; [|intros; apply keeps_ret]. unfold replace_attachment. apply (keeps_update f _ with_attachments). exact Hf.
Qed.

(** A consignment put into a stash without definitions: the genesis is there, and the kit was
    imported into a stash without definitions. *)
Lemma consignment_defines c s s1 : st_geneses s = [] -> defs s = defs st_empty -> c_extensions c = [] ->
  consume_consignment H K c s = (s1, Ok tt) ->
  mget (contract_id H (c_genesis c)) (st_geneses s1) = Some (c_genesis c) /\
  exists sd, defs sd = defs st_empty /\ consume_kit (kit_of c) sd = (s1, Ok tt).
Proof.
  intros Sg Sd Ex E. unfold consume_consignment in E. cbv zeta in E. rewrite Ex in E.
  unfold bind at 1 in E. destruct (consume_genesis H _ s) as [sa [ua|e|]] eqn:Ea; try discriminate.
  unfold bind at 1 in E. cbn [mfor] in E. unfold ret at 1 in E.
  unfold bind at 1 in E. destruct (mfor (consume_witness_bundle H K _) _ sa) as [sc [uc|e|]] eqn:Ec; try discriminate.
  unfold bind at 1 in E. destruct (mfor _ (c_attachments c) sc) as [sd [ud|e|]] eqn:Ed; try discriminate.
  assert (Da : defs sa = defs s) by (eapply keeps_genesis, Ea).
  assert (Dc : (defs sc, st_geneses sc) = (defs sa, st_geneses sa)).
  { refine (keeps_mfor (fun s => (defs s, st_geneses s)) _ _ _ _ _ _ Ec). intros wb _. apply keeps_witness_bundle; reflexivity. }
  assert (Dd : (defs sd, st_geneses sd) = (defs sc, st_geneses sc)).
  { refine (keeps_mfor (fun s => (defs s, st_geneses s)) _ _ _ _ _ _ Ed). intros wb _. apply keeps_attachment; reflexivity. }
  pose proof (f_equal snd Dc) as Gc. pose proof (f_equal snd Dd) as Gd. apply (f_equal fst) in Dc. apply (f_equal fst) in Dd.
  cbn [fst snd] in Dc, Dd, Gc, Gd. split.
  - destruct (kit_success _ _ _ E) as [I _]. destruct (ki_rest _ _ _ I) as (P & _). rewrite P.
    replace (st_geneses sd) with (st_geneses sa) by congruence.
    unfold consume_genesis, bind, get in Ea. rewrite Sg in Ea. cbn [mget] in Ea.
    unfold ret, replace_genesis, bind, get, grown, lift, put, ret in Ea. rewrite Sg in Ea.
    destruct (cinsert _ _ _ _) as [m|] eqn:Em; cbn [ok_or] in Ea; [|discriminate]. injection Ea as <- _. cbn.
    apply cinsert_inv in Em as [-> _]. apply mget_insert_eq.
  - exists sd. split; [rewrite Dd, Dc, Da; exact Sd|exact E].
Qed.
End Kept.

(** Signatures come from the kit. *)
Lemma import_sigs_from c sigs s s' r ct : attempt (import_sigs c sigs) s = (s', r) ->
  mget ct (st_sigs s') <> None -> mget ct (st_sigs s) <> None \/ ct = c.
Proof.
  unfold attempt, import_sigs, bind, get, put, ret, fail. destruct (mget c (st_sigs s)).
  - destruct (add_sigs _ _ _) as [[ids acc] []]; intros [= <- _]; cbn; rewrite mget_insert; (destruct (keqb ct c) eqn:Ek; [apply keqb_true in Ek; auto|auto]).
  - destruct (add_sigs _ _ _) as [[ids acc] []]; cbn [negb]; [|intros [= <- _]; cbn; auto].
    destruct (len acc =? 0); [intros [= <- _]; cbn; auto|].
    destruct (cinsert U16MAX c acc (st_sigs s)) as [m|] eqn:Ec; intros [= <- _]; cbn; [|auto].
    apply cinsert_inv in Ec as [-> _]. rewrite mget_insert. destruct (keqb ct c) eqn:Ek; [apply keqb_true in Ek; auto|auto].
Qed.
Lemma import_all_sigs_from l ct : forall s s' r, mfor (fun p => attempt (import_sigs (fst p) (snd p))) l s = (s', r) ->
  mget ct (st_sigs s') <> None -> mget ct (st_sigs s) <> None \/ In ct (map fst l).
Proof.
  induction l as [|p l IH]; intros s s' r; cbn [mfor]; [intros [= <- _]; auto|]. unfold bind.
  destruct (attempt _ s) as [s1 [u|e|]] eqn:E.
  - intros E2 N0. destruct (IH _ _ _ E2 N0) as [N1|N1]; [|right; right; exact N1].
    destruct (import_sigs_from _ _ _ _ _ _ E N1) as [N2| ->]; [auto|right; left; reflexivity].
  - intros [= <- _] N1. destruct (import_sigs_from _ _ _ _ _ _ E N1) as [N2| ->]; [auto|right; left; reflexivity].
  - intros [= <- _] N1. destruct (import_sigs_from _ _ _ _ _ _ E N1) as [N2| ->]; [auto|right; left; reflexivity].
Qed.
Lemma kit_sigs_from k s s' r ct : consume_kit k s = (s', r) -> mget ct (st_sigs s') <> None ->
  mget ct (st_sigs s) <> None \/ In ct (map fst (k_signatures k)).
Proof.
  unfold consume_kit.
  assert (P : forall (m : STM unit) (k' : STM unit) s, keeps st_sigs m ->
     (forall s0 s1 r, k' s0 = (s1, r) -> mget ct (st_sigs s1) <> None -> mget ct (st_sigs s0) <> None \/ In ct (map fst (k_signatures k))) ->
     forall s1 r, (m ;;! k') s = (s1, r) -> mget ct (st_sigs s1) <> None -> mget ct (st_sigs s) <> None \/ In ct (map fst (k_signatures k))).
  { intros m k' s0 Km Hk s1 r0. unfold bind. destruct (m s0) as [s2 [u|e|]] eqn:E; apply Km in E.
    - intros E2 N0. rewrite <- E. eapply Hk; eassumption.
    - intros [= <- _] N0. left. congruence.
    - intros [= <- _] N0. left. congruence. }
  revert s' r. apply P.
  { unfold consume_types. apply keeps_mfor. intros p _. intros s0 s1 r0. unfold bind, get, grown, lift, put.
    destruct (cinsert _ _ _ _); cbn [ok_or]; intros [= <- _]; reflexivity. }
  intros s0. apply P.
  { apply keeps_mfor. intros p _. apply keeps_bind; [|intros; apply keeps_ret]. unfold replace_lib. apply (keeps_update st_sigs _ with_libs). reflexivity. }
  clear s0. intros s0. apply P.
  { apply keeps_mfor. intros p _. apply keeps_bind; [|intros; apply keeps_ret]. intros s1 s2 r0. unfold replace_schema, bind, get, grown, lift, put, ret.
    destruct (mhas _ _); [intros [= <- _]; reflexivity|]. destruct (cinsert _ _ _ _); cbn [ok_or]; intros [= <- _]; reflexivity. }
  clear s0. intros s0. apply P.
  { apply keeps_mfor. intros p _. apply keeps_bind; [|intros; apply keeps_ret]. intros s1 s2 r0. unfold replace_iface, bind, get, grown, lift, put, ret.
    destruct (mhas _ _); [intros [= <- _]; reflexivity|]. destruct (cinsert _ _ _ _); cbn [ok_or]; intros [= <- _]; reflexivity. }
  clear s0. intros s0. apply P.
  { apply keeps_mfor. intros p _. apply keeps_bind; [|intros; apply keeps_ret]. intros s1 s2 r0. unfold replace_iimpl, bind, get, grown, lift, put, ret, panic.
    destruct (mget _ _) as [si|]; [|intros [= <- _]; reflexivity]. destruct (mget _ _) as [i|]; [|intros [= <- _]; reflexivity].
    destruct (cinsert _ _ _ _); cbn [ok_or]; intros [= <- _]; reflexivity. }
  clear s0. intros s0. apply P.
  { apply keeps_mfor. intros p _. intros s1 s2 r0. unfold add_supplement, bind, get, grown, lift, put, ret.
    destruct (mget _ _) as [l|]; [destruct (cpush _ _ _)|destruct (cinsert _ _ _ _)]; cbn [ok_or]; intros [= <- _]; reflexivity. }
  clear s0. intros s0. intros s1 r. apply import_all_sigs_from.
Qed.

(** ** More about what was exported *)

Section Exported.
Context {OG : OrdKey GlobalOut} (H : Hashes) (K : Merkle) (s : Stock).

Lemma export_more fuel transfer cid outputs secret c : sound H s ->
  consign H K fuel s transfer cid outputs secret = Some (Ok c) ->
  (forall w a b, holds c w a b -> chosen s (bundle_id H b) w /\ anchored K s (bundle_id H b) w a b) /\
  (forall wb, In wb (c_bundles c) -> exists a b, holds c (wb_id wb) a b) /\
  len (c_signatures c) <= U8MAX /\ len (c_supplements c) <= U8MAX.
Proof.
  intros Sd. unfold consign. destruct (collect H K s cid outputs secret) as [co|e|] eqn:Ec; try discriminate.
  destruct (collect_ok _ _ _ _ _ _ _ Sd Ec) as (outs & Eo & C).
  destruct (walk H K s cid fuel (start_ids (cl_transitions co)) (cl_bundles co)) as [[m|e|]|] eqn:Ew; try discriminate.
  intros E. injection E as E.
  destruct (walk_ok H K s cid fuel Sd _ _ _ (cd_entries _ _ _ _ _ _ _ C) Ew) as (W1 & W2 & W3).
  destruct (assemble_ok _ _ _ _ _ _ _ _ Sd W1 E) as (_ & _ & _ & _ & _ & gr & A6 & A7).
  split; [|split; [|]].
  - intros w a b (wb & Hin & Ei & Hc). rewrite A6 in Hin. unfold mvals in Hin. apply in_map_iff in Hin as ([w' wb'] & E1 & Hin). cbn [snd] in E1. subst wb'.
    apply In_mget in Hin; [|apply (gr_sorted _ _ _ _ A7)]. destruct (gr_witness _ _ _ _ A7 _ _ Hin) as [E1 _].
    replace w' with w in Hin by congruence.
    destruct (gr_from _ _ _ _ A7 _ _ _ _ Hin Hc) as (cb & _ & -> & -> & (bid & ws & cd & Eb & Ei' & Es)).
    rewrite (made_id H K s bid cb Sd Eb). split; [apply (chosen_iff s bid ws cd); [apply Sd|exact Ei'|exact Es]|].
    destruct (goes_to_anchored K s cb w) as (bid' & Eb' & An); [exists bid, ws, cd; auto|].
    rewrite <- (made_id H K s bid cb Sd Eb), (made_id H K s bid' cb Sd Eb'). exact An.
  - intros wb Hin. assert (Hx : exists a b, carries (wb_bundles wb) a b).
    { assert (X : exists p, In p (anchored_iter (wb_bundles wb))) by (destruct (wb_bundles wb); eexists; left; reflexivity).
      destruct X as ([a b] & X). apply anchored_iter_carries in X. eauto. }
    destruct Hx as (a & b & Hx). exists a, b, wb. auto.
  - unfold assemble in E.
    destruct (of_stash (stash_genesis _ _)) as [g|e|] eqn:Eg; cbn [rbind] in E; try discriminate.
    destruct (of_stash (stash_schema _ _)) as [si|e|] eqn:Ei; cbn [rbind] in E; try discriminate.
    destruct (ifaces_of _ _) as [ifs|e|] eqn:Ef; cbn [rbind] in E; try discriminate.
    destruct (rfold (group_step K H s) [] (mvals m)) as [gr'|e|] eqn:Er; cbn [rbind] in E; try discriminate.
    destruct (negb _) in E; [discriminate|]. destruct (negb _) in E; [discriminate|].
    destruct (extract _ _ _) as [ex|e|] eqn:Ee; cbn [rbind] in E; try discriminate.
    match type of E with context [if negb ?x then _ else _] => destruct x eqn:L1 end; cbn [negb] in E; [|discriminate].
    match type of E with context [if negb ?x then _ else _] => destruct x eqn:L2 end; cbn [negb] in E; [|discriminate].
    apply Ok_inj in E. subst c. cbn [c_signatures c_supplements]. apply N.leb_le in L1, L2. auto.
Qed.
End Exported.

(** ** The receiver has the definitions *)

Lemma find_last_some {A} (f : A -> bool) l x : In x l -> f x = true -> find_last f l <> None.
Proof.
  intros Hin Hf E. unfold find_last in E. apply in_rev in Hin. pose proof (find_none _ _ E _ Hin). congruence.
Qed.

Lemma Forall2_build {A B} (R : A -> B -> Prop) l : (forall x, In x l -> exists y, R x y) -> exists l', Forall2 R l l'.
Proof.
  induction l as [|x l IH]; intros Hl; [exists []; constructor|].
  destruct (Hl x (or_introl eq_refl)) as (y & Hy). destruct IH as (l' & F); [intros z Hz; apply Hl; right; exact Hz|].
  exists (y :: l'). constructor; assumption.
Qed.

Lemma at_most_incl {A} n (P : A -> Prop) (l : list A) : (forall x, P x -> In x l) -> len l <= n -> at_most n P.
Proof.
  intros Hi Hl l' Nd Hp. assert (L : (length l' <= length l)%nat) by (apply NoDup_incl_length; [exact Nd|]; intros x Hx; apply Hi, Hp, Hx).
  unfold len in *. lia.
Qed.

Lemma received_definable H K s cid c sr s1 :
  filed H s -> stash_sorted s1 -> definable s cid -> defined s cid c -> contract_id H (c_genesis c) = cid ->
  len (c_signatures c) <= U8MAX -> len (c_supplements c) <= U8MAX ->
  st_geneses sr = [] -> defs sr = defs st_empty -> c_extensions c = [] ->
  consume_consignment H K c sr = (s1, Ok tt) ->
  definable s1 cid /\ mget cid (st_geneses s1) = Some (c_genesis c) /\
  exists si, mget (g_schema (c_genesis c)) (st_schemata s1) = Some si /\ si_schema si = c_schema c.
Proof.
  intros Fi So Df D Eg L1 L2 Sg Sd Ex E.
  destruct (consignment_defines H K c sr s1 Sg Sd Ex E) as (G1 & sd & Dd & Ek). rewrite Eg in G1.
  destruct (kit_success _ _ _ Ek) as [I _].
  unfold defs in Dd. cbn in Dd. injection Dd as D1 D2 D3 D4 D5 D6.
  destruct (df_schema _ _ _ D) as (si0 & Es0 & Ec0 & Em0 & En0).
  pose proof (fi_schema _ _ Fi _ _ Es0) as Ei0. rewrite <- Ec0 in Ei0.
  pose proof (ki_schema _ _ _ I (g_schema (c_genesis c))) as Ks. rewrite D1 in Ks. cbn [mget kit_of k_schemata find] in Ks.
  unfold g_schema in Ks. rewrite Ei0, N.eqb_refl in Ks.
  destruct (mget (op_ty (c_genesis c)) (st_schemata s1)) as [si|] eqn:Es; [|discriminate]. cbn [option_map] in Ks. apply Some_inj in Ks.
  assert (Hif : forall id i, mget id (st_ifaces s1) = Some i -> exists im, In (i, im) (c_ifaces c)).
  { intros id i Hi. rewrite (ki_iface _ _ _ I), D2 in Hi. cbn [mget kit_of k_ifaces] in Hi. apply find_some in Hi as [Hi _].
    apply set_by_spec in Hi. apply in_map_iff in Hi as ([i' im] & <- & Hin). eauto. }
  assert (Him : forall name im, mget name (si_impls si) = Some im -> exists i, In (i, im) (c_ifaces c)).
  { intros name im Hm. pose proof (ki_impl _ _ _ I (g_schema (c_genesis c)) name) as Kp. unfold impl_under in Kp.
    unfold g_schema in Kp. rewrite Es, D1, Hm in Kp. cbn [mget] in Kp.
    destruct (find_last _ _) as [im'|] eqn:Ef; [|discriminate]. apply Some_inj in Kp. subst im'.
    unfold find_last in Ef. apply find_some in Ef as [Hin _]. apply in_rev in Hin. cbn [kit_of k_impls] in Hin. apply set_by_spec in Hin.
    apply in_map_iff in Hin as ([i im'] & <- & Hin). eauto. }
  assert (Hnm : forall p, In p (si_impls si) -> exists q, snd q = snd p /\ iface_by_name s1 (fst p) = Ok (fst q)).
  { intros [name im] Hp. apply In_mget in Hp; [|apply (so_impls _ So _ _ Es)].
    pose proof (ki_impl _ _ _ I (g_schema (c_genesis c)) name) as Kp. unfold impl_under in Kp.
    unfold g_schema in Kp. rewrite Es, D1, Hp in Kp. cbn [mget] in Kp.
    destruct (find_last _ _) as [im'|] eqn:Ef; [|discriminate]. apply Some_inj in Kp. subst im'.
    unfold find_last in Ef. apply find_some in Ef as [_ Hat]. unfold impl_at in Hat. apply andb_true_iff in Hat as [_ Hat].
    destruct (mget (im_iface im) (st_ifaces s1)) as [i|] eqn:Ei; [|discriminate]. unfold iface_by_name. cbn [fst snd].
    destruct (find (fun i0 => if_name i0 =? name) (stash_ifaces s1)) as [j|] eqn:Ej; [exists (j, im); auto|].
    exfalso. apply mget_In in Ei. assert (X : In i (stash_ifaces s1)) by (apply (in_map snd _ _ Ei)).
    pose proof (find_none _ _ Ej _ X). cbn in *. congruence. }
  destruct (Forall2_build _ _ Hnm) as (ifs & F2).
  assert (Hifs : forall i im, In (i, im) ifs -> (exists im', In (i, im') (c_ifaces c)) /\ (exists i', In (i', im) (c_ifaces c))).
  { intros i im Hin. destruct (Forall2_In_r _ _ _ _ F2 Hin) as ([name im0] & Hp & E1 & E2). cbn [fst snd] in *. subst im0. split.
    - unfold iface_by_name in E2. destruct (find _ _) as [j|] eqn:Ej; cbn [ok_or] in E2; [|discriminate]. apply Ok_inj in E2. subst j.
      apply find_some in Ej as [Ej _]. unfold stash_ifaces, mvals in Ej. apply in_map_iff in Ej as ([id i'] & <- & Ej).
      apply In_mget in Ej; [|apply So]. eapply Hif, Ej.
    - apply In_mget in Hp; [|apply (so_impls _ So _ _ Es)]. eapply Him, Hp. }
  assert (Hty : forall id, mget id (c_types c) <> None -> mget id (st_types s1) <> None).
  { intros id Hn. destruct (mget id (c_types c)) as [t|] eqn:Et; [|congruence]. apply mget_In in Et.
    rewrite (ki_type _ _ _ I). cbn [kit_of k_types]. pose proof (find_last_some (fun p => fst p =? id) _ _ Et (N.eqb_refl id)) as Fl.
    destruct (find_last _ _); [discriminate|congruence]. }
  assert (Hct : forall ct, content cid (g_schema (c_genesis c)) ifs ct -> subject_of cid c ct).
  { intros ct Hc. destruct Hc as [| |i im Hin|i im Hin]; [constructor|constructor| |].
    - destruct (proj1 (Hifs _ _ Hin)) as (im' & Hin'). eapply so_iface, Hin'.
    - destruct (proj2 (Hifs _ _ Hin)) as (i' & Hin'). eapply so_impl, Hin'. }
  split; [|split; [exact G1|exists si; auto]].
  exists (c_genesis c), si, ifs.
  split; [exact G1|]. split; [exact Es|]. split; [exact F2|]. rewrite Ks.
  split; [|split; [|split; [|split; [|split]]]].
  - intros id Hid. apply Hty. destruct (df_types _ _ _ D id (or_introl Hid)) as (t & _ & Et). congruence.
  - intros i im id Hin Hid. destruct (proj1 (Hifs _ _ Hin)) as (im' & Hin'). apply Hty.
    destruct (df_types _ _ _ D id (or_intror (ex_intro _ i (ex_intro _ im' (conj Hin' Hid))))) as (t & _ & Et). congruence.
  - intros id Hid. destruct (df_libs _ _ _ D id Hid) as (l & _ & El). apply mget_In in El.
    rewrite (ki_lib _ _ _ I). cbn [kit_of k_scripts]. pose proof (find_last_some (fun p => fst p =? id) _ _ El (N.eqb_refl id)) as Fl.
    destruct (find_last _ _); [discriminate|congruence].
  - destruct Df as (g & si' & ifs' & Y1 & Y2 & _ & _ & _ & _ & Y7 & _).
    rewrite (df_genesis _ _ _ D) in Y1. apply Some_inj in Y1. subst g. unfold g_schema in Y2. rewrite Es0 in Y2. apply Some_inj in Y2. subst si'.
    rewrite Ec0. exact Y7.
  - apply (at_most_incl _ _ (map fst (c_signatures c))); [|unfold len in *; rewrite map_length; exact L1].
    intros ct [_ Hn]. destruct (kit_sigs_from _ _ _ _ _ Ek Hn) as [X|X]; [rewrite D6 in X; destruct X; reflexivity|exact X].
  - apply (at_most_incl _ _ (c_supplements c)); [|exact L2].
    intros x (ct & _ & (more & Hx)). assert (X : In x (stash_supplements s1 ct)) by (unfold stash_supplements; rewrite Hx; left; reflexivity).
    apply (ki_suppl _ _ _ I) in X. destruct X as [[X _]|X]; [exact X|]. unfold stash_supplements in X. rewrite D3 in X. destruct X.
Qed.

Lemma defined_bundles s cid c x : defined s cid c -> defined s cid (set_bundles c x).
Proof.
  intros [D1 D2 D3 D4 D5 D6 D7 D8 D9].
  assert (So : forall ct, subject_of cid (set_bundles c x) ct <-> subject_of cid c ct).
  { intros ct. split; (intros C; inversion C as [E|E|i im Hin E|i im Hin E]; subst;
      [apply so_contract|first [exact (so_schema cid c)|exact (so_schema cid (set_bundles c x))]|eapply so_iface; exact Hin|eapply so_impl; exact Hin]). }
  constructor; try assumption.
  - intros ct y. cbn [c_signatures set_bundles]. rewrite So. apply D8.
  - intros y. cbn [c_supplements set_bundles]. rewrite D9. split; intros (ct & C & F); exists ct; (split; [apply So, C|exact F]).
Qed.

(** ** Passing on *)

Section Relay.
Context {OG : OrdKey GlobalOut} (H : Hashes) (HC : collision_free H) (K : Merkle) (PK : proves_known K).
Context (s : Stock) (fuel : nat) (transfer : bool) (cid : N) (outputs : list OutSeal) (secret : option N) (c : Consignment).
Context (Re : reachable H K s) (Ex : consign H K fuel s transfer cid outputs secret = Some (Base.Ok c)).
Context (s0 : Stock) (R0 : reachable H K s0) (Ag : agrees H s0 c) (r : Resolver) (r1 : Stock).
Context (Ac : accept_body H K c r s0 = (r1, Base.Ok tt)) (Na : not_archived c r).

Lemma before_sound : sound H s0.
Proof. apply (reachable_sound H HC K s0 R0). Qed.

Lemma relay_call_ok : stock_call_ok H (SkAccept c r).
Proof.
  pose proof (reachable_sound H HC K s Re) as Sd.
  apply (exported_ok H K s HC fuel transfer cid outputs secret c Sd (reachable_fine H HC K s Re) Ex).
Qed.

Lemma relay_reachable : reachable H K r1.
Proof.
  destruct R0 as (l & Lo & El). exists (l ++ [SkAccept c r]). split.
  - intros d Hd. apply in_app_or in Hd. destruct Hd as [Hd|[<-|[]]]; [apply Lo, Hd|apply relay_call_ok].
  - unfold stock_after. rewrite fold_left_app. cbn [fold_left stock_body]. unfold stock_after in El. rewrite <- El, Ac. reflexivity.
Qed.

(** What the index of the receiver says comes from the consignment or was there before. *)
Lemma relay_index : exists c', resolve_secrets H (sk_stash s0) c = Base.Ok c' /\
  forall f, states (sk_index r1) f <-> states (sk_index s0) f \/ consignment_announces H c' f.
Proof.
  pose proof (accept_ok _ _ _ _ _ _ Ac) as (c' & E0 & _ & E2 & _). exists c'. split; [exact E0|].
  destruct (adds_call H (IxConsignment c') _ _ _ E2 (sd_index _ _ before_sound)) as (_ & Snd & _ & Cmp). specialize (Cmp tt eq_refl).
  intros f. split; [apply Snd|]. intros [Hf|Hf]; apply Cmp; [left; exact Hf|right; left; exact Hf].
Qed.

Lemma relay_witness bid w : states (sk_index r1) (FWitness bid w) ->
  states (sk_index s0) (FWitness bid w) \/ exists a b, holds c w a b /\ bundle_id H b = bid.
Proof.
  destruct relay_index as (c' & E0 & Hx). intros Fx. apply Hx in Fx. destruct Fx as [Fx|Fx]; [left; exact Fx|right].
  destruct Fx as [Fx|[Fx|[(e & _ & Fx)|(wb & b1 & Hin & Hb & Fx)]]]; [discriminate| | |].
  - destruct Fx as (ty & no & aa & _ & [(? & ? & _ & _ & Fx)|(? & _ & Fx)]); discriminate.
  - destruct Fx as (ty & no & aa & _ & [(? & ? & _ & _ & Fx)|(? & _ & Fx)]); discriminate.
  - destruct Fx as [Fx|[Fx|(k & t1 & _ & [Fx|Fx])]]; [discriminate| |discriminate|].
    + injection Fx as Fx1 Fx2. rewrite anchored_bundles_map in Hb. apply in_map_iff in Hb as ([a1 b2] & Eb2 & Hb).
      cbn [snd] in Eb2. subst b2. destruct (resolve_holds H _ _ _ w a1 b1 E0) as (b & Hh & Al).
      { apply holds_iff. exists wb. auto. }
      exists a1, b. split; [exact Hh|]. rewrite <- (alike_id H _ _ Al). symmetry. exact Fx1.
    + destruct Fx as (ty & no & aa & _ & [(? & ? & _ & _ & Fx)|(? & _ & Fx)]); discriminate.
Qed.

(** A witness which was archived and is not in the consignment still is. *)
Lemma relay_archived w : mget w (ms_witnesses (sk_state s0)) = Some Archived -> (forall wb, In wb (c_bundles c) -> wb_id wb <> w) ->
  mget w (ms_witnesses (sk_state r1)) = Some Archived.
Proof.
  intros Ar Nt. pose proof (accept_ok _ _ _ _ _ _ Ac) as (c' & E0 & E1 & _). cbn [state_call] in E1.
  destruct (wsets_consignment H c' r _ _ _ E1) as [A1 _]. destruct (A1 w) as [->|((wb & Hin & _ & Ew) & _)]; [exact Ar|].
  exfalso. destruct (resolve_alike H _ _ _ E0) as [_ F2]. destruct (Forall2_In_r _ _ _ _ F2 Hin) as (wb0 & Hin0 & Al0).
  apply (Nt wb0 Hin0). rewrite <- Ew. symmetry. apply Al0.
Qed.

(** An operation of the history of the sender is known to the receiver, in the same bundle. *)
Lemma relay_known id bid ts : found_history s cid outputs secret id -> known_in s id bid ts ->
  exists t w a b, known_in r1 id bid t /\ op_inputs t = op_inputs ts /\ chosen r1 bid w /\ anchored K r1 bid w a b /\
    exists w0 a0 b0, holds c w0 a0 b0 /\ bundle_id H b0 = bid /\ ea_dbc a = ea_dbc a0.
Proof.
  intros Hh Hk. pose proof (reachable_sound H HC K s Re) as Sd. pose proof (reachable_sound H HC K r1 relay_reachable) as Sd1.
  destruct (export_more H K s fuel transfer cid outputs secret c Sd Ex) as (X1 & X2 & _).
  destruct (consign_ok H K s cid outputs secret fuel transfer c Sd Ex) as (_ & _ & P3 & _).
  destruct (P3 _ _ _ Hh Hk) as (w & a & b & Hb & An).
  pose proof (X1 _ _ _ Hb) as [_ An']. 
  assert (Eb : bundle_id H b = bid) by exact (fi_bundle _ _ (go_filed _ _ (sd_stash _ _ Sd)) _ _ (proj1 An)).
  destruct (accept_pass_on H K _ c r r1 bid id HC PK before_sound relay_call_ok Ac) as (t & cb & Tr & Ti & Cb & Tk & w0 & a0 & b0 & Hb0 & Eb0 & Ed0).
  - rewrite <- Eb. apply (Ag w a b id Hb). destruct Hk as (_ & b2 & Gb2 & Et). rewrite (proj1 An) in Gb2. apply Some_inj in Gb2. subst b2. congruence.
  - intros w2 a2 b2 Hb2 Eb2. destruct (X1 _ _ _ Hb2) as [_ (Gb0 & _ & _ & cd & sw & an & _ & _ & _ & _ & Ed)]. split.
    + rewrite Eb2 in Gb0. destruct Hk as (_ & b3 & Gb2 & Et). rewrite Gb0 in Gb2. apply Some_inj in Gb2. subst b3. congruence.
    + rewrite Ed. reflexivity.
  - destruct Hb as (wb & Hin & Ew & Hc). pose proof (Na wb Hin) as Nw. rewrite Ew in Nw.
    assert (Rw : r w <> None).
    { pose proof (accept_ok _ _ _ _ _ _ Ac) as (c' & E0 & E1 & _ & _).
      assert (Hw : holds c w a b) by (exists wb; auto). 
      assert (Kb : mget id (b_known b) = Some ts).
      { destruct Hk as (_ & b2 & Gb2 & Et). rewrite (proj1 An) in Gb2. apply Some_inj in Gb2. subst b2. exact Et. }
      destruct (resolved_transition H _ _ _ _ _ _ _ _ E0 Hw Kb) as (wb' & t' & Hin' & Ew' & Ht').
      cbn [state_call] in E1. destruct (wsets_consignment H c' r _ _ _ E1) as [_ A2]. apply (A2 tt eq_refl w).
      exists wb'. split; [exact Hin'|]. split; [|exact Ew']. intros En. rewrite En in Ht'. destruct Ht'. }
    destruct (r w) as [ord|] eqn:Er; [|congruence]. exists w, a, b, ord.
    split; [exists wb; auto|]. split; [exact Eb|]. split; [exact Er|congruence].
  - destruct (client_chosen H K r1 bid cb Sd1 Cb) as (w1 & Ch & An1 & _ & _).
    apply transition_ok in Tr. destruct Tr as (bid1 & Ki1).
    assert (Kb : known_in r1 id bid t).
    { destruct relay_index as (c' & E0 & Hx). destruct (resolve_holds_fwd H _ _ _ _ _ _ E0 Hb) as (b' & Hb' & Al).
      assert (Kn : mget id (b_known b) <> None).
      { destruct Hk as (_ & b2 & Gb2 & Et). rewrite (proj1 An) in Gb2. apply Some_inj in Gb2. subst b2. congruence. }
      apply (alike_known _ _ id Al) in Kn. destruct (mget id (b_known b')) as [t'|] eqn:Et'; [|congruence].
      assert (Fo : states (sk_index r1) (FOp id bid)).
      { apply Hx. right. right. right. right. apply holds_iff in Hb'. destruct Hb' as (wb & Hin & Ew & Hp).
        exists wb, b'. split; [exact Hin|]. split; [rewrite anchored_bundles_map; apply (in_map snd _ _ Hp)|].
        right. right. exists id, t'. split; [apply mget_In, Et'|]. left. rewrite (alike_id H _ _ Al), Eb. reflexivity. }
      split; [exact Fo|]. exists (cb_bundle cb). split; [exact (proj1 An1)|exact Tk]. }
    exists t, w1, (cb_anchor cb), (cb_bundle cb). split; [exact Kb|]. split; [|split; [exact Ch|split; [exact An1|exists w0, a0, b0; auto]]].
    pose proof (known_keyed H s id bid ts Sd Hk) as Ki. rewrite <- Ti in Ki. unfold op_id in Ki. apply (proj1 (proj2 (proj2 HC))) in Ki. symmetry. exact (f_equal op_inputs Ki).
Qed.

Context (outputs' : list OutSeal) (secret' : option N).
Context (Ak : askable H r1 cid outputs' secret').
Context (Within : forall oo, found r1 cid outputs' secret' oo -> oo_op oo = cid \/ found_history s cid outputs secret (oo_op oo)).

Lemma relay_same id bid ts bid' t : found_history s cid outputs secret id -> known_in s id bid ts -> known_in r1 id bid' t ->
  bid' = bid /\ op_inputs t = op_inputs ts.
Proof.
  intros Hh Hk Hk'. destruct (relay_known id bid ts Hh Hk) as (t0 & _ & _ & _ & Hk0 & Ei & _).
  destruct (known_in_fun _ _ _ _ _ _ Hk' Hk0) as [-> ->]. auto.
Qed.

Lemma sender_knows id : found_history s cid outputs secret id -> exists bid ts, known_in s id bid ts.
Proof.
  intros Hh. pose proof (reachable_sound H HC K s Re) as Sd.
  destruct (consign_ok H K s cid outputs secret fuel transfer c Sd Ex) as (P1 & _).
  destruct (P1 id Hh) as (t & bid & Hk). eauto.
Qed.

Lemma relay_history id : found_history r1 cid outputs' secret' id -> found_history s cid outputs secret id.
Proof.
  unfold found_history at 1. induction 1 as [id (oo & Rq & <-) Ne|id t i R IH Hk Hin Ne].
  - destruct (Within oo Rq) as [E|Hh]; [congruence|exact Hh].
  - destruct (sender_knows id IH) as (bid & ts & Hs). destruct Hk as (bid' & Hk).
    destruct (relay_same id bid ts bid' t IH Hs Hk) as [_ Ei]. rewrite Ei in Hin.
    exact (reached_parent _ _ _ id ts i IH (ex_intro _ bid Hs) Hin Ne).
Qed.

Lemma relay_chosen id bid ts w : found_history s cid outputs secret id -> known_in s id bid ts -> chosen r1 bid w -> chosen s bid w.
Proof.
  intros Hh Hk (Fw & Lw & _).
  assert (X : exists a b, holds c w a b /\ bundle_id H b = bid).
  { destruct (relay_witness bid w Fw) as [F0|X]; [|exact X].
    pose proof (reachable_sound H HC K s Re) as Sd.
    destruct (consign_ok H K s cid outputs secret fuel transfer c Sd Ex) as (_ & _ & P3 & _).
    destruct (P3 _ _ _ Hh Hk) as (w1 & a & b & Hb & An).
    assert (Eb : bundle_id H b = bid) by exact (fi_bundle _ _ (go_filed _ _ (sd_stash _ _ Sd)) _ _ (proj1 An)).
    destruct (Ag w1 a b id Hb) as [_ W].
    { destruct Hk as (_ & b2 & Gb2 & Et). rewrite (proj1 An) in Gb2. apply Some_inj in Gb2. subst b2. congruence. }
    rewrite Eb in W. destruct (W w F0) as [Y|[Ar Nt]]; [exact Y|]. exfalso.
    pose proof (relay_archived w Ar Nt) as Ar1. destruct Lw as (o & Eo & No). congruence. }
  destruct X as (a & b & Hb & <-).
  exact (proj1 (proj1 (export_more H K s fuel transfer cid outputs secret c (reachable_sound H HC K s Re) Ex) _ _ _ Hb)).
Qed.

Lemma relay_bundle bid b b1 : mget bid (st_bundles (sk_stash s)) = Some b -> mget bid (st_bundles (sk_stash r1)) = Some b1 ->
  b_method b1 = b_method b /\ b_inputs b1 = b_inputs b.
Proof.
  intros E E1. pose proof (reachable_sound H HC K s Re) as Sd. pose proof (reachable_sound H HC K r1 relay_reachable) as Sd1.
  pose proof (fi_bundle _ _ (go_filed _ _ (sd_stash _ _ Sd)) _ _ E) as I.
  pose proof (fi_bundle _ _ (go_filed _ _ (sd_stash _ _ Sd1)) _ _ E1) as I1. rewrite <- I1 in I. unfold bundle_id in I.
  apply (proj2 (proj2 (proj2 HC))) in I. destruct I. auto.
Qed.

Lemma relay_exportable : no_cycles H -> definable (sk_stash r1) cid -> exportable H K r1 cid outputs' secret'.
Proof.
  intros Nc Df. pose proof (reachable_sound H HC K s Re) as Sd.
  assert (Xp : exportable H K s cid outputs secret).
  { apply (consign_iff H K s cid outputs secret transfer Sd); [|eauto].
    destruct Nc as (rank & Hr). exists rank. intros id t i (bid & Ki) Hin. rewrite <- (known_keyed H s id bid t Sd Ki). apply Hr, Hin. }
  assert (Kb : forall id bid t, found_history r1 cid outputs' secret' id -> known_in r1 id bid t ->
     found_history s cid outputs secret id /\ exists ts, known_in s id bid ts /\ op_inputs t = op_inputs ts).
  { intros id bid t Hh Hk. apply relay_history in Hh. split; [exact Hh|]. destruct (sender_knows id Hh) as (bid' & ts & Hs).
    destruct (relay_same _ _ _ _ _ Hh Hs Hk) as [-> Ei]. eauto. }
  assert (Gb : forall bid w, chosen s bid w -> forall id ts, known_in s id bid ts -> exists b, mget bid (st_bundles (sk_stash s)) = Some b).
  { intros bid w _ id ts (_ & b & Eb & _). eauto. }
  constructor.
  - destruct relay_index as (c' & E0 & Hx). assert (Fc : states (sk_index r1) (PIndexSpec.FContract cid)).
    { apply Hx. right. left. rewrite (resolved_genesis H _ _ _ E0).
      rewrite (genesis_of_export H HC K fuel s transfer cid outputs secret c Re Ex). reflexivity. }
    destruct Fc as (ci & Ec). congruence.
  - apply Ak.
  - intros id Hh. apply relay_history in Hh. destruct (sender_knows id Hh) as (bid & ts & Hs).
    destruct (relay_known id bid ts Hh Hs) as (t & _ & _ & _ & Hk & _). exists t, bid. exact Hk.
  - intros id bid t Hh Hk. destruct (Kb id bid t Hh Hk) as (Hs & ts & Hks & _).
    destruct (relay_known id bid ts Hs Hks) as (_ & w & a & b & _ & _ & Ch & An & _). eauto.
  - intros id t i bid t' b Hh (bid0 & Hk) Hin Ne Hk' Eb. destruct (Kb id bid0 t Hh Hk) as (Hs & ts & Hks & Ei).
    assert (Hp : found_history r1 cid outputs' secret' (oo_op i)) by (eapply reached_parent; [exact Hh|exists bid0; exact Hk|exact Hin|exact Ne]).
    destruct (Kb _ _ _ Hp Hk') as (_ & ts' & Hks' & _). pose proof Hks' as (_ & b0 & Eb0 & _).
    destruct (relay_bundle bid b0 b Eb0 Eb) as [_ ->]. rewrite Ei in Hin.
    eapply (xp_listed _ _ _ _ _ _ Xp id ts i bid ts' b0); eauto. exists bid0. exact Hks.
  - intros id bid t id' bid' t' w b b' Hh Hk Hh' Hk' Ch Ch' Eb Eb' Em.
    destruct (Kb _ _ _ Hh Hk) as (Hs & ts & Hks & _). destruct (Kb _ _ _ Hh' Hk') as (Hs' & ts' & Hks' & _).
    pose proof Hks as (_ & b0 & Eb0 & _). pose proof Hks' as (_ & b0' & Eb0' & _).
    destruct (relay_bundle _ _ _ Eb0 Eb) as [M _]. destruct (relay_bundle _ _ _ Eb0' Eb') as [M' _].
    eapply (xp_methods _ _ _ _ _ _ Xp id bid ts id' bid' ts' w b0 b0'); eauto; [exact (relay_chosen _ _ _ _ Hs Hks Ch)|exact (relay_chosen _ _ _ _ Hs' Hks' Ch')|congruence].
  - apply Ak.
  - exact Df.
  - intros ws Nd Hw. apply (xp_bundles_fit _ _ _ _ _ _ Xp ws Nd). intros w Hin. destruct (Hw w Hin) as (id & bid & t & Hh & Hk & Ch).
    destruct (Kb _ _ _ Hh Hk) as (Hs & ts & Hks & _). exists id, bid, ts. split; [exact Hs|]. split; [exact Hks|]. exact (relay_chosen _ _ _ _ Hs Hks Ch).
  - apply Ak.
Qed.

Lemma relay_bundles fuel' transfer' c' : consign H K fuel' r1 transfer' cid outputs' secret' = Some (Base.Ok c') -> retold_history H c c'.
Proof.
  intros E. pose proof (reachable_sound H HC K s Re) as Sd. pose proof (reachable_sound H HC K r1 relay_reachable) as Sd1.
  destruct (export_more H K r1 fuel' transfer' cid outputs' secret' c' Sd1 E) as (X1 & X2 & _).
  destruct (consign_ok H K r1 cid outputs' secret' fuel' transfer' c' Sd1 E) as (_ & P2 & _ & _ & _ & _ & _ & _ & D).
  assert (Bd : forall w a' b', holds c' w a' b' -> exists a b, holds c w a b /\ bundle_id H b = bundle_id H b' /\ ea_dbc a' = ea_dbc a).
  { intros w a' b' Hb. destruct (X1 _ _ _ Hb) as [Ch An].
    destruct (P2 _ _ _ Hb) as (id & bid & t & Hh & Hk & An').
    assert (Ei : bundle_id H b' = bid) by exact (fi_bundle _ _ (go_filed _ _ (sd_stash _ _ Sd1)) _ _ (proj1 An')).
    rewrite Ei in *. apply relay_history in Hh. destruct (sender_knows id Hh) as (bid' & ts & Hs).
    destruct (relay_same _ _ _ _ _ Hh Hs Hk) as [<- _].
    destruct (relay_known id bid ts Hh Hs) as (_ & w1 & a1 & b1 & _ & _ & Ch1 & An1 & w0 & a0 & b0 & Hb0 & Ei0 & Ed).
    assert (w1 = w) by (eapply chosen_fun; eassumption). subst w1.
    destruct (export_more H K s fuel transfer cid outputs secret c Sd Ex) as (Y1 & _). destruct (Y1 _ _ _ Hb0) as [Ch0 _].
    rewrite Ei0 in Ch0. assert (w0 = w) by (eapply chosen_fun; [exact Ch0|exact (relay_chosen _ _ _ _ Hh Hs Ch)]). subst w0.
    exists a0, b0. split; [exact Hb0|]. split; [exact Ei0|]. rewrite <- Ed.
    destruct An as (Gb & _ & _ & cd & sw & an & _ & Ew & Ea & _ & ->). destruct An1 as (Gb1 & _ & _ & cd1 & sw1 & an1 & _ & Ew1 & Ea1 & _ & ->).
    rewrite Gb in Gb1. apply Some_inj in Gb1. subst b1. rewrite Ew in Ew1. apply Some_inj in Ew1. subst sw1. rewrite Ea in Ea1. apply Some_inj in Ea1.
    subst an1. reflexivity. }
  constructor.
  - unfold contract_id. rewrite (genesis_of_export H HC K fuel s transfer cid outputs secret c Re Ex).
    exact (genesis_of_export H HC K fuel' r1 transfer' cid outputs' secret' c' relay_reachable E).
  - exact Bd.
  - intros wb Hin. destruct (X2 wb Hin) as (a' & b' & Hb). destruct (Bd _ _ _ Hb) as (a & b & (wb0 & Hin0 & Ew & _) & _). eauto.
Qed.
End Relay.

(** *** Receivers with seals only *)

Section Blank.
Context {OG : OrdKey GlobalOut} (H : Hashes) (HC : collision_free H) (K : Merkle).
Context (s : Stock) (fuel : nat) (transfer : bool) (cid : N) (outputs : list OutSeal) (secret : option N) (c : Consignment).
Context (Re : reachable H K s) (Ex : consign H K fuel s transfer cid outputs secret = Some (Base.Ok c)).
Context (l : list StockCall) (Ol : only_seals l) (r : Resolver) (r1 : Stock).
Context (Ac : accept_body H K c r (stock_after H K sk_empty l) = (r1, Base.Ok tt)).

Lemma blank_reachable : reachable H K (stock_after H K sk_empty l).
Proof. exists l. split; [|reflexivity]. intros d Hd. destruct (Ol d Hd) as [->|(x & ->)]; exact Logic.I. Qed.

Lemma blank_states f : ~ states (sk_index (stock_after H K sk_empty l)) f.
Proof.
  destruct (only_seals_blank H K l Ol) as (seals & Eb & So). rewrite Eb. cbn [sk_index]. intros Hf.
  destruct f; cbn in Hf; try discriminate.
  - destruct Hf as (ci & Hf). discriminate.
  - destruct Hf as (ws & Hf & _). discriminate.
  - destruct Hf as (ci & set & Hf & _). discriminate.
  - destruct Hf as (set & Hf & _). discriminate.
Qed.

Lemma blank_agrees : agrees H (stock_after H K sk_empty l) c.
Proof.
  intros w a b id _ _. apply new_agreeable. split; [|intros w0; apply blank_states].
  destruct (only_seals_blank H K l Ol) as (seals & Eb & _). rewrite Eb. reflexivity.
Qed.

Lemma relay_definable : no_cycles H -> definable (sk_stash r1) cid /\ mget cid (st_geneses (sk_stash r1)) = Some (c_genesis c) /\
  exists si, mget (g_schema (c_genesis c)) (st_schemata (sk_stash r1)) = Some si /\ si_schema si = c_schema c.
Proof.
  intros Nc. pose proof (reachable_sound H HC K s Re) as Sd.
  destruct (export_more H K s fuel transfer cid outputs secret c Sd Ex) as (_ & _ & L1 & L2).
  destruct (consign_ok H K s cid outputs secret fuel transfer c Sd Ex) as (_ & _ & _ & _ & _ & _ & Ee & _ & D).
  assert (Xp : exportable H K s cid outputs secret).
  { apply (consign_iff H K s cid outputs secret transfer Sd); [|eauto].
    destruct Nc as (rank & Hr). exists rank. intros id t i (bid & Ki) Hin. rewrite <- (known_keyed H s id bid t Sd Ki). apply Hr, Hin. }
  destruct (only_seals_blank H K l Ol) as (seals & Eb & So).
  pose proof (accept_ok _ _ _ _ _ _ Ac) as (c' & E0 & _ & _ & E3). rewrite Eb in E3. cbn [sk_stash] in E3.
  destruct (resolve_alike H _ _ _ E0) as [Ec _].
  assert (S1 : stash_sorted (sk_stash r1)) by (pose proof (sorted_call H K (ShConsignment c') _ So) as S1; cbn [stash_call] in S1; rewrite E3 in S1; exact S1).
  rewrite Ec in E3.
  replace (c_genesis c) with (c_genesis c') by (rewrite Ec; reflexivity). replace (c_schema c) with (c_schema c') by (rewrite Ec; reflexivity).
  apply (received_definable H K (sk_stash s) cid c' (with_seals seals st_empty) (sk_stash r1)).
  - apply Sd.
  - exact S1.
  - apply Xp.
  - rewrite Ec. apply defined_bundles, D.
  - rewrite Ec. apply (genesis_of_export H HC K fuel s transfer cid outputs secret c Re Ex).
  - rewrite Ec. exact L1.
  - rewrite Ec. exact L2.
  - reflexivity.
  - reflexivity.
  - rewrite Ec. exact Ee.
  - rewrite Ec. exact E3.
Qed.


Lemma blank_retold outputs' secret' fuel' transfer' c' : no_cycles H -> proves_known K -> not_archived c r ->
  (forall oo, found r1 cid outputs' secret' oo -> oo_op oo = cid \/ found_history s cid outputs secret (oo_op oo)) ->
  consign H K fuel' r1 transfer' cid outputs' secret' = Some (Base.Ok c') -> retold H c c'.
Proof.
  intros Nc PK Na Wi E.
  pose proof (relay_bundles H HC K PK s fuel transfer cid outputs secret c Re Ex _ blank_reachable blank_agrees r r1 Ac Na outputs' secret' Wi fuel' transfer' c' E) as [_ B W].
  pose proof (relay_reachable H HC K s fuel transfer cid outputs secret c Re Ex _ blank_reachable r r1 Ac) as R1.
  destruct (consign_ok H K r1 cid outputs' secret' fuel' transfer' c' (reachable_sound H HC K r1 R1) E) as (_ & _ & _ & _ & _ & _ & _ & _ & D).
  destruct (relay_definable Nc) as (_ & Eg & si & Es & Esc).
  assert (Eg' : c_genesis c' = c_genesis c) by (pose proof (df_genesis _ _ _ D) as F; rewrite Eg in F; apply Some_inj in F; auto).
  constructor; [exact Eg'| |exact B|exact W].
  destruct (df_schema _ _ _ D) as (si' & Es' & Ec' & _). rewrite Eg' in Es'. unfold g_schema in Es. rewrite Es in Es'. apply Some_inj in Es'.
  subst si'. congruence.
Qed.
End Blank.

(** *** Receivers with other data *)

(** What can be looked up among the definitions is complete. *)
Record orderly (s : MemStash) : Prop := {
  od_types : forall id si t, mget id (st_schemata s) = Some si -> In t (sch_types (si_schema si)) -> mget t (st_types s) <> None;
  od_libs : forall id si t, mget id (st_schemata s) = Some si -> In t (sch_libs (si_schema si)) -> mget t (st_libs s) <> None;
  od_fit : forall id si, mget id (st_schemata s) = Some si -> at_most U8MAX (fun t => In t (sch_libs (si_schema si)));
  od_impl : forall id name im, impl_under s id name = Some im -> exists ii i, mget ii (st_ifaces s) = Some i /\ if_name i = name;
  od_iface : forall id i t, mget id (st_ifaces s) = Some i -> In t (if_types i) -> mget t (st_types s) <> None
}.

Lemma orderly_defs s s' : defs s' = defs s -> orderly s -> orderly s'.
Proof.
  unfold defs. intros E [A B C D F]. injection E as E1 E2 E3 E4 E5 E6.
  constructor; unfold impl_under in *; rewrite ?E1, ?E2, ?E4, ?E5; assumption.
Qed.

Lemma kit_orderly k s s' : complete_kit k -> kit_imported k s s' -> orderly s -> orderly s'.
Proof.
  intros [C1 C2 C3 C4] I [A B C D F].
  assert (Ty : forall t, mget t (st_types s) <> None \/ mget t (k_types k) <> None -> mget t (st_types s') <> None).
  { intros t Ht. rewrite (ki_type _ _ _ I). destruct (find_last _ _) eqn:Fl; [discriminate|]. destruct Ht as [Ht|Ht]; [exact Ht|].
    exfalso. destruct (mget t (k_types k)) as [x|] eqn:Et; [|congruence]. apply mget_In in Et.
    pose proof (find_last_some (fun p => fst p =? t) _ _ Et (N.eqb_refl t)) as Fs. congruence. }
  assert (Li : forall t, mget t (st_libs s) <> None \/ mget t (k_scripts k) <> None -> mget t (st_libs s') <> None).
  { intros t Ht. rewrite (ki_lib _ _ _ I). destruct (find_last _ _) eqn:Fl; [discriminate|]. destruct Ht as [Ht|Ht]; [exact Ht|].
    exfalso. destruct (mget t (k_scripts k)) as [x|] eqn:Et; [|congruence]. apply mget_In in Et.
    pose proof (find_last_some (fun p => fst p =? t) _ _ Et (N.eqb_refl t)) as Fs. congruence. }
  assert (Sc : forall id si, mget id (st_schemata s') = Some si ->
    (exists si0, mget id (st_schemata s) = Some si0 /\ si_schema si0 = si_schema si) \/ In (si_schema si) (k_schemata k)).
  { intros id si E. pose proof (ki_schema _ _ _ I id) as Ks. rewrite E in Ks. cbn [option_map] in Ks.
    destruct (mget id (st_schemata s)) as [si0|]; [left; exists si0; split; [reflexivity|congruence]|right].
    symmetry in Ks. apply find_some in Ks. apply Ks. }
  assert (If : forall id i, mget id (st_ifaces s) = Some i -> mget id (st_ifaces s') = Some i).
  { intros id i E. rewrite (ki_iface _ _ _ I), E. reflexivity. }
  constructor.
  - intros id si t E Ht. apply Ty. destruct (Sc _ _ E) as [(si0 & E0 & Es)|Hin]; [left; eapply A; [exact E0|rewrite Es; exact Ht]|right; eapply C1; eassumption].
  - intros id si t E Ht. apply Li. destruct (Sc _ _ E) as [(si0 & E0 & Es)|Hin]; [left; eapply B; [exact E0|rewrite Es; exact Ht]|right; eapply C3; eassumption].
  - intros id si E. destruct (Sc _ _ E) as [(si0 & E0 & Es)|Hin]; [rewrite <- Es; eapply C, E0|apply C4, Hin].
  - intros id name im E. rewrite (ki_impl _ _ _ I) in E. destruct (find_last _ _) as [im'|] eqn:Ef.
    + unfold find_last in Ef. apply find_some in Ef as [_ Hat]. unfold impl_at in Hat. apply andb_true_iff in Hat as [_ Hat].
      destruct (mget (im_iface im') (st_ifaces s')) as [i|] eqn:Ei; [|discriminate]. exists (im_iface im'), i. split; [exact Ei|apply N.eqb_eq, Hat].
    + destruct (D _ _ _ E) as (ii & i & Hi & En). exists ii, i. split; [apply If, Hi|exact En].
  - intros id i t E Ht. apply Ty. rewrite (ki_iface _ _ _ I) in E. destruct (mget id (st_ifaces s)) as [i0|] eqn:E0.
    + left. apply Some_inj in E. subst i0. eapply F; eassumption.
    + right. apply find_some in E as [E _]. eapply C2; eassumption.
Qed.

(** Before the kit of a consignment is imported nothing is done to the definitions. *)
Lemma consignment_kit H K c s s1 : consume_consignment H K c s = (s1, Base.Ok tt) ->
  exists sd, defs sd = defs s /\ consume_kit (kit_of c) sd = (s1, Base.Ok tt).
Proof.
  intros E. unfold consume_consignment in E. cbv zeta in E.
  unfold bind at 1 in E. destruct (consume_genesis H _ s) as [sa [ua|e|]] eqn:Ea; try discriminate.
  unfold bind at 1 in E. destruct (mfor (consume_extension H) _ sa) as [sb [ub|e|]] eqn:Eb; try discriminate.
  unfold bind at 1 in E. destruct (mfor (consume_witness_bundle H K _) _ sb) as [sc [uc|e|]] eqn:Ec; try discriminate.
  unfold bind at 1 in E. destruct (mfor _ (c_attachments c) sc) as [sd [ud|e|]] eqn:Ed; try discriminate.
  exists sd. split; [|exact E].
  rewrite (keeps_mfor defs _ _ (fun p _ => keeps_attachment defs p (fun _ _ => eq_refl)) _ _ _ Ed).
  rewrite (keeps_mfor defs _ _ (fun wb _ => keeps_witness_bundle H K defs _ wb (fun _ _ => eq_refl) (fun _ _ => eq_refl)) _ _ _ Ec).
  rewrite (keeps_mfor defs _ _ (fun e _ => keeps_extension H e) _ _ _ Eb). exact (keeps_genesis H _ _ _ _ Ea).
Qed.

Lemma orderly_empty : orderly st_empty.
Proof. constructor; unfold impl_under; cbn; discriminate. Qed.

Lemma collected_reachable {OG : OrdKey GlobalOut} H K s : collected H K s -> reachable H K s.
Proof.
  assert (G : forall s d s1, reachable H K s -> stock_call_ok H d -> fst (stock_body H K d s) = s1 -> reachable H K s1).
  { intros s0 d s1 (l & Lo & ->) Od <-. exists (l ++ [d]). split.
    - intros x Hx. apply in_app_or in Hx. destruct Hx as [Hx|[<-|[]]]; [apply Lo, Hx|exact Od].
    - unfold stock_after. rewrite fold_left_app. reflexivity. }
  intros C. induction C as [|s c r s1 _ IH Od _ E|s k s1 _ IH _ E|s d _ IH Od _].
  - exists []. split; [intros c []|reflexivity].
  - eapply (G s _ s1 IH Od). cbn [stock_body]. rewrite E. reflexivity.
  - eapply (G s (SkKit k) s1 IH Logic.I). cbn [stock_body]. rewrite E. reflexivity.
  - exact (G s d _ IH Od eq_refl).
Qed.

(** A call of the stock which does nothing to the definitions *)
Definition skeeps {A} (m : KM A) : Prop := forall s s' r, m s = (s', r) -> defs (sk_stash s') = defs (sk_stash s).
Lemma skeeps_bind {A B} (m : KM A) (k : A -> KM B) : skeeps m -> (forall a, skeeps (k a)) -> skeeps (bind m k).
Proof.
  intros Km Kk s s' r. unfold bind. destruct (m s) as [s1 [a|e|]] eqn:E; apply Km in E.
  - intros E2. apply Kk in E2. congruence.
  - intros [= <- _]. exact E.
  - intros [= <- _]. exact E.
Qed.
Lemma skeeps_ret {A} (a : A) : skeeps (ret a).
Proof. intros s s' r [= <- _]. reflexivity. Qed.
Lemma skeeps_stash {A} (m : STM A) : keeps defs m -> skeeps (on_stash m).
Proof. intros Km s s' r. unfold on_stash. destruct (m (sk_stash s)) as [x y] eqn:E. intros [= <- _]. cbn. eapply Km, E. Qed.
Lemma skeeps_state {A} (m : M MemState StateError A) : skeeps (on_state m).
Proof. intros s s' r. unfold on_state. destruct (m (sk_state s)) as [x y] eqn:E. intros [= <- _]. reflexivity. Qed.
Lemma skeeps_index {A} (m : M MemIndex IndexError A) : skeeps (on_index m).
Proof. intros s s' r. unfold on_index. destruct (m (sk_index s)) as [x y] eqn:E. intros [= <- _]. reflexivity. Qed.

Lemma other_keeps {OG : OrdKey GlobalOut} H K d s : match d with SkAccept _ _ | SkKit _ => False | _ => True end ->
  defs (sk_stash (fst (stock_body H K d s))) = defs (sk_stash s).
Proof.
  intros Hd. assert (S : skeeps (stock_body H K d)).
  { destruct d as [c r|f r|k|x|r a|]; try destruct Hd; cbn [stock_body].
    - unfold fascia_body. apply skeeps_bind; [apply skeeps_stash, (keeps_witness defs); reflexivity|]. intros _.
      induction (fascia_bundles f) as [|p l IH]; cbn [mfor]; [apply skeeps_ret|]. apply skeeps_bind; [|intros; exact IH].
      unfold fascia_bundle. apply skeeps_bind.
      { destruct (known_subset _); [apply skeeps_ret|]. intros s0 s' r0 [= <- _]. reflexivity. }
      intros _. apply skeeps_bind; [apply skeeps_index|]. intros _. apply skeeps_bind; [apply skeeps_state|]. intros _.
      apply skeeps_bind; [apply skeeps_stash, (keeps_bundle H defs); reflexivity|]. intros _. apply skeeps_ret.
    - apply skeeps_bind; [|intros; apply skeeps_ret]. apply skeeps_stash. intros s0 s' r.
      unfold store_secret_seal, add_secret_seal, bind, get, grown, lift, put, ret.
      destruct (cpush _ _ _) as [l'|]; cbn [ok_or]; intros [= <- _]; reflexivity.
    - apply skeeps_bind; [apply skeeps_state|intros; apply skeeps_ret].
    - apply skeeps_ret. }
  destruct (stock_body H K d s) as [s' r] eqn:E. cbn [fst]. eapply S, E.
Qed.

Lemma collected_orderly {OG : OrdKey GlobalOut} H K s : collected H K s -> orderly (sk_stash s).
Proof.
  intros C. induction C as [|s c r s1 _ IH _ Co E|s k s1 _ IH Co E|s d _ IH _ Hd].
  - apply orderly_empty.
  - destruct (accept_ok _ _ _ _ _ _ E) as (c' & E0 & _ & _ & E3). destruct (resolve_alike H _ _ _ E0) as [Ec _]. rewrite Ec in E3.
    destruct (consignment_kit _ _ _ _ _ E3) as (sd & Dd & Ek). destruct (kit_success _ _ _ Ek) as [I _].
    refine (kit_orderly (kit_of c) _ _ Co I _). eapply orderly_defs; eassumption.
  - unfold on_stash in E. destruct (consume_kit k (sk_stash s)) as [x y] eqn:Ek. injection E as <- Ey. destruct y as [[]|e|]; try discriminate Ey.
    cbn [sk_stash]. destruct (kit_success _ _ _ Ek) as [I _]. exact (kit_orderly k _ _ Co I IH).
  - eapply orderly_defs; [apply other_keeps, Hd|exact IH].
Qed.

(** With few signatures and annotations a known contract can be described. *)
Lemma orderly_definable s cid g si : stash_sorted s -> orderly s -> few_notes s ->
  mget cid (st_geneses s) = Some g -> mget (g_schema g) (st_schemata s) = Some si -> definable s cid.
Proof.
  intros So [A B C D F] [N1 N2] Eg Es.
  assert (Hnm : forall p, In p (si_impls si) -> exists q, snd q = snd p /\ iface_by_name s (fst p) = Base.Ok (fst q)).
  { intros [name im] Hp. apply In_mget in Hp; [|apply (so_impls _ So _ _ Es)].
    destruct (D (g_schema g) name im) as (ii & i & Ei & En); [unfold impl_under; rewrite Es; exact Hp|].
    unfold iface_by_name. cbn [fst snd].
    destruct (find (fun i0 => if_name i0 =? name) (stash_ifaces s)) as [j|] eqn:Ej; [exists (j, im); auto|].
    exfalso. apply mget_In in Ei. assert (X : In i (stash_ifaces s)) by (apply (in_map snd _ _ Ei)).
    pose proof (find_none _ _ Ej _ X) as Nn. cbn in Nn. apply N.eqb_neq in Nn. congruence. }
  destruct (Forall2_build _ _ Hnm) as (ifs & F2).
  exists g, si, ifs. split; [exact Eg|]. split; [exact Es|]. split; [exact F2|].
  split; [intros id; eapply A, Es|]. split.
  { intros i im id Hin Hid. destruct (Forall2_In_r _ _ _ _ F2 Hin) as ([name im0] & Hp & _ & E2). cbn [fst snd] in *.
    unfold iface_by_name in E2. destruct (find _ _) as [j|] eqn:Ej; cbn [ok_or] in E2; [|discriminate]. apply Ok_inj in E2. subst j.
    apply find_some in Ej as [Ej _]. unfold stash_ifaces, mvals in Ej. apply in_map_iff in Ej as ([ii i'] & <- & Ej).
    apply In_mget in Ej; [|apply So]. eapply F; eassumption. }
  split; [intros id; eapply B, Es|]. split; [eapply C, Es|]. split.
  - intros l Nd Hl. apply (N1 l Nd). intros ct Hc. apply (Hl ct Hc).
  - intros l Nd Hl. apply (N2 l Nd). intros x Hx. destruct (Hl x Hx) as (ct & _ & Fn). eauto.
Qed.

Section Prior.
Context {OG : OrdKey GlobalOut} (H : Hashes) (HC : collision_free H) (K : Merkle).
Context (s : Stock) (fuel : nat) (transfer : bool) (cid : N) (outputs : list OutSeal) (secret : option N) (c : Consignment).
Context (Re : reachable H K s) (Ex : consign H K fuel s transfer cid outputs secret = Some (Base.Ok c)).
Context (s0 : Stock) (C0 : collected H K s0) (r : Resolver) (r1 : Stock) (Ac : accept_body H K c r s0 = (r1, Base.Ok tt)).

(** Exports are complete. *)
Lemma export_complete : no_cycles H -> complete_kit (kit_of c).
Proof.
  intros Nc. pose proof (reachable_sound H HC K s Re) as Sd.
  destruct (consign_ok H K s cid outputs secret fuel transfer c Sd Ex) as (_ & _ & _ & _ & _ & _ & _ & _ & D).
  assert (Xp : exportable H K s cid outputs secret).
  { apply (consign_iff H K s cid outputs secret transfer Sd); [|eauto].
    destruct Nc as (rank & Hr). exists rank. intros id t i (bid & Ki) Hin. rewrite <- (known_keyed H s id bid t Sd Ki). apply Hr, Hin. }
  constructor; cbn [kit_of k_schemata k_ifaces k_types k_scripts].
  - intros sc id [<-|[]] Hid. destruct (df_types _ _ _ D id (or_introl Hid)) as (t & _ & Et). congruence.
  - intros i id Hi Hid. apply set_by_spec in Hi. apply in_map_iff in Hi as ([i' im] & <- & Hin). cbn [fst] in *.
    destruct (df_types _ _ _ D id (or_intror (ex_intro _ i' (ex_intro _ im (conj Hin Hid))))) as (t & _ & Et). congruence.
  - intros sc id [<-|[]] Hid. destruct (df_libs _ _ _ D id Hid) as (l & _ & El). congruence.
  - intros sc [<-|[]]. destruct (xp_defined _ _ _ _ _ _ Xp) as (g & si' & ifs' & Y1 & Y2 & _ & _ & _ & _ & Y7 & _).
    destruct (df_schema _ _ _ D) as (si0 & Es0 & Ec0 & _).
    rewrite (df_genesis _ _ _ D) in Y1. apply Some_inj in Y1. subst g. unfold g_schema in Y2. rewrite Es0 in Y2. apply Some_inj in Y2. subst si'.
    rewrite Ec0. exact Y7.
Qed.

Lemma prior_collected : no_cycles H -> collected H K r1.
Proof.
  intros Nc. eapply col_accept; [exact C0| |exact (export_complete Nc)|exact Ac].
  exact (relay_call_ok H HC K s fuel transfer cid outputs secret c Re Ex r).
Qed.

Lemma prior_definable : no_cycles H -> few_notes (sk_stash r1) -> definable (sk_stash r1) cid.
Proof.
  intros Nc Fn. pose proof (reachable_sound H HC K s Re) as Sd.
  pose proof (reachable_sound H HC K r1 (collected_reachable H K r1 (prior_collected Nc))) as Sd1.
  destruct (consign_ok H K s cid outputs secret fuel transfer c Sd Ex) as (_ & _ & _ & _ & _ & _ & _ & _ & D).
  pose proof (genesis_of_export H HC K fuel s transfer cid outputs secret c Re Ex) as Eg.
  destruct (accept_ok _ _ _ _ _ _ Ac) as (c' & E0 & _ & _ & E3). destruct (resolve_alike H _ _ _ E0) as [Ec _].
  destruct (QueryMore.consumed_genesis H K c' _ _ E3) as [G1 (si & Es)].
  replace (c_genesis c') with (c_genesis c) in G1 by (rewrite Ec; reflexivity). replace (c_schema c') with (c_schema c) in Es by (rewrite Ec; reflexivity).
  unfold contract_id in G1. rewrite Eg in G1. destruct (mget cid (st_geneses (sk_stash r1))) as [g|] eqn:Gg; [|congruence].
  destruct (df_schema _ _ _ D) as (si0 & Es0 & Ec0 & _).
  pose proof (fi_schema _ _ (go_filed _ _ (sd_stash _ _ Sd)) _ _ Es0) as Ei0. rewrite <- Ec0 in Ei0.
  assert (Et : op_ty g = op_ty (c_genesis c)).
  { apply (QueryProofs.same_schema H); [exact HC|]. rewrite (fi_genesis _ _ (go_filed _ _ (sd_stash _ _ Sd1)) _ _ Gg). symmetry. exact Eg. }
  unfold stash_schema in Es. rewrite Ei0 in Es. destruct (mget (op_ty (c_genesis c)) _) as [si1|] eqn:Es1; cbn [ok_or] in Es; [|discriminate].
  destruct (collected_reachable H K r1 (prior_collected Nc)) as (calls & _ & Er).
  apply (orderly_definable _ _ g si1); [rewrite Er; apply QueryProofs.stock_filed| |exact Fn|exact Gg|unfold g_schema; rewrite Et; exact Es1].
  apply (collected_orderly H K), prior_collected, Nc.
Qed.
End Prior.

(** What is asked of the receiver is in the consignment. *)
Lemma relay_found {OG : OrdKey GlobalOut} H (HC : collision_free H) K c l r r1 cid outputs secret oo :
  only_seals l -> c_extensions c = [] -> op_id H (c_genesis c) = cid ->
  accept_body H K c r (stock_after H K sk_empty l) = (r1, Base.Ok tt) ->
  found r1 cid outputs secret oo -> oo_op oo = cid \/ exists t, reveals_op c (oo_op oo) t.
Proof.
  intros Ol Ee Eg Ac Rq. destruct (relay_index H HC K c _ (blank_reachable H K l Ol) r r1 Ac) as (c' & E0 & Hx').
  assert (Hx : forall f, states (sk_index r1) f -> consignment_announces H c' f).
  { intros f Hf. apply Hx' in Hf. destruct Hf as [Hf|Hf]; [destruct (blank_states H K l Ol f Hf)|exact Hf]. }
  destruct (resolve_alike H _ _ _ E0) as [Ec _].
  assert (Ee' : c_extensions c' = []) by (rewrite Ec; exact Ee). assert (Eg' : op_id H (c_genesis c') = cid) by (rewrite Ec; exact Eg).
  assert (Op : forall opid w o f, op_announces cid opid w o f -> (exists out, f = FOut cid out oo) \/ (exists x, f = FTerm x oo) -> oo_op oo = opid).
  { intros opid w o f (ty & no & a & _ & [(x & out & _ & _ & ->)|(x & _ & ->)]) [(out' & E)|(x' & E)]; try discriminate E.
    - injection E as _ E. rewrite <- E. reflexivity.
    - injection E as _ E. rewrite <- E. reflexivity. }
  assert (G : forall f, states (sk_index r1) f -> (exists out, f = FOut cid out oo) \/ (exists x, f = FTerm x oo) ->
    oo_op oo = cid \/ exists t, reveals_op c (oo_op oo) t).
  { intros f Hf Sh. apply Hx in Hf. unfold consignment_announces in Hf. cbv zeta in Hf. rewrite Ee', Eg' in Hf.
    destruct Hf as [->|[Hf|[(e & [] & _)|(wb & b & Hin & Hb & Hf)]]].
    - destruct Sh as [(? & E)|(? & E)]; discriminate.
    - left. eapply Op; eassumption.
    - destruct Hf as [->|[->|(opid & t & Ht & [->|Hf])]]; try (destruct Sh as [(? & E)|(? & E)]; discriminate).
      rewrite (Op _ _ _ _ Hf Sh). right. rewrite anchored_bundles_map in Hb. apply in_map_iff in Hb as ([a b1] & <- & Hb). cbn [snd] in *.
      destruct (resolve_holds H _ _ _ (wb_id wb) a b1 E0) as (b & Hh & Al); [apply holds_iff; eauto|].
      assert (Kn : mget opid (b_known b1) <> None).
      { intros En. apply mget_None_notin in En. apply En. apply (in_map fst _ _ Ht). }
      apply (alike_known _ _ opid Al) in Kn. destruct (mget opid (b_known b)) as [t0|] eqn:Et; [|congruence].
      exists t0, (wb_id wb), a, b. auto. }
  destruct Rq as [(out & o & _ & _ & Hf & _)|(x & _ & Hf)]; [apply (G _ Hf); left; eauto|apply (G _ Hf); right; eauto].
Qed.
