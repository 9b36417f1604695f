(** * The stock and its files: properties C32 and C33, and C26 for the whole stock *)
From Verif Require Import Base StM Core MergeSpec ContainerModel ContainerSpec.
From Verif Require Import PIndexModel PIndexSpec PIndexProofs StateModel StateSpec StateProofs.
From Verif Require Import StashModel StashSpec StashProofs StashProps StockModel StockSpec StockProofs StockAgain Ser StockCodec.
Local Open Scope N_scope.

(** ** C32: failed calls *)

(** A call which fails for another reason than its files leaves the files as they were:
    a process started from them has the stock from before the call. *)
Theorem C32_reload_partial : forall (OG : OrdKey GlobalOut) H K C io c h h' r d,
  codecs_ok C -> in_sync C h -> ho_disk h = Some d ->
  stock_call H K C io c h = (h', r) -> r <> Ok tt ->
  all_done io \/ (exists e, r = Err e /\ e <> PersistenceFailed /\ e <> ProcessStopped) ->
  exists d', ho_disk h' = Some d' /\ load C d' = Ok (ho_stock h).
Proof.
  intros OG H K C io c h h' r d HC Hs Hd E Hr Hw. pose proof (failed_disk _ _ _ _ _ _ _ _ E Hr Hw) as Ed.
  exists d. rewrite Ed. split; [exact Hd|]. exact (Hs d Hd).
Qed.

(** What the stock of the process knew before any call, failing or not, it knows after it. *)
Theorem C32_kept_partial : forall (OG : OrdKey GlobalOut) H K C io c l h,
  ho_stock h = stock_after H K sk_empty l ->
  let s := ho_stock h in
  let s' := ho_stock (fst (stock_call H K C io c h)) in
  (forall f, is_term f = false -> states (sk_index s) f -> states (sk_index s') f) /\
  (forall cid, (exists x, contract_state (sk_state s) cid = Ok x) -> exists x, contract_state (sk_state s') cid = Ok x) /\
  (forall cid k a, sstates (sk_state s) (SFOut cid k a) -> sstates (sk_state s') (SFOut cid k a)) /\
  (forall id si, stash_schema (sk_stash s) id = Ok si ->
     exists si', stash_schema (sk_stash s') id = Ok si' /\ si_schema si' = si_schema si) /\
  (forall id i, iface_by_id (sk_stash s) id = Ok i -> iface_by_id (sk_stash s') id = Ok i) /\
  (forall x, In x (st_seals (sk_stash s)) -> In x (st_seals (sk_stash s'))).
Proof.
  intros OG H K C io c l h Eh s s'. subst s s'. rewrite stock_call_stock, Eh.
  destruct (body_moved H K c (stock_after H K sk_empty l)) as ((li & Ii & _) & (ls & Is & _) & (lh & Ih & _)).
  rewrite Ii, Is, Ih. clear Ii Is Ih.
  destruct (after_moved H K l sk_empty) as ((mi & Ji & _) & (ms & Js & _) & _).
  assert (W : wf (sk_index (stock_after H K sk_empty l))) by (rewrite Ji; apply calls_wf, (after_wf H [])).
  assert (V : swf (sk_state (stock_after H K sk_empty l))) by (rewrite Js; apply (safter_wf H ms)).
  set (s := stock_after H K sk_empty l) in *.
  destruct (scalls_adds H ls (sk_state s) V) as (_ & _ & Kp & _).
  split; [intros f; apply PIndexProofs.calls_keep, W|].
  split. { intros cid Hc. apply contract_state_ok. apply contract_state_ok in Hc. exact (Kp (SFContract cid) eq_refl Hc). }
  split; [intros cid k a; apply Kp; reflexivity|].
  split; [intros id; apply (C48_definitions_kept H K lh (sk_stash s) id)|].
  split; [intros id; apply (C48_definitions_kept H K lh (sk_stash s) id)|].
  intros x Hx. revert Hx. apply (calls_keep anything H K (fun t => In x (st_seals t))).
  - intros a b. apply seal_kept.
  - intros a id' b Ha. exact Ha.
  - intros. apply unguarded.
Qed.

(** What it knows after the call and did not know before is something the call brought. *)
Theorem C32_only_offered : forall (OG : OrdKey GlobalOut) H K C io c l h,
  ho_stock h = stock_after H K sk_empty l ->
  let s := ho_stock h in
  let s' := ho_stock (fst (stock_call H K C io c h)) in
  (forall f, states (sk_index s') f -> states (sk_index s) f \/ exists x, index_of H c s x /\ announces H x f) /\
  (forall f, sstates (sk_state s') f -> sstates (sk_state s) f \/ exists x, state_of H c s x /\ sannounces H x f).
Proof.
  intros OG H K C io c l h Eh s s'. subst s s'. rewrite stock_call_stock, Eh.
  destruct (body_moved H K c (stock_after H K sk_empty l)) as ((li & Ii & Pi) & (ls & Is & Ps) & _).
  rewrite Ii, Is. clear Ii Is.
  destruct (after_moved H K l sk_empty) as ((mi & Ji & _) & (ms & Js & _) & _).
  assert (W : wf (sk_index (stock_after H K sk_empty l))) by (rewrite Ji; apply calls_wf, (after_wf H [])).
  assert (V : swf (sk_state (stock_after H K sk_empty l))) by (rewrite Js; apply (safter_wf H ms)).
  set (s := stock_after H K sk_empty l) in *. split.
  - intros f Hf. apply calls_sound in Hf; [|exact W]. destruct Hf as [Hf|(x & Hx & Hf)]; [left; exact Hf|right; eauto].
  - intros f Hf. destruct (scalls_adds H ls (sk_state s) V) as (_ & So & _).
    destruct (So f Hf) as [Hg|(x & Hx & Hg)]; [left; exact Hg|right; eauto].
Qed.

(** But a failed call does leave traces in the process: a consignment whose witness cannot
    be resolved is rejected, and its contract is known from then on. *)
Definition no_witness : Resolver := fun _ => None.
Theorem C32_no_trace_refuted : forall OG : OrdKey GlobalOut, ~ forall H K C io c r h h' e cid,
  codecs_ok C -> in_sync C h -> all_done io -> ho_stock h = sk_empty ->
  stock_call H K C io (SkAccept c r) h = (h', Err e) ->
  (exists x, contract_state (sk_state (ho_stock h')) cid = Ok x) ->
  exists x, contract_state (sk_state (ho_stock h)) cid = Ok x.
Proof.
  intros OG Bad. pose (H := bit_hashes).
  pose (done := {| io_stash := IoDone; io_state := IoDone; io_index := IoDone |}).
  pose (h := {| ho_stock := sk_empty; ho_disk := None |}).
  pose (x := stock_call H ex_merkle std_codecs done (SkAccept (ex_cons H ex_secret) no_witness) h).
  assert (Ex : snd x = Err (SkState (ResolverFailed {| w_layer := Bitcoin; w_txid := 8 |})) /\
               exists y, contract_state (sk_state (ho_stock (fst x))) (op_id H (c_genesis (ex_cons H ex_secret))) = Ok y).
  { split; [vm_compute; reflexivity|]. eexists. vm_compute. reflexivity. }
  destruct Ex as [E1 E2]. specialize (Bad H ex_merkle std_codecs done (ex_cons H ex_secret) no_witness h (fst x)
    (SkState (ResolverFailed {| w_layer := Bitcoin; w_txid := 8 |})) (op_id H (c_genesis (ex_cons H ex_secret))) std_codecs_ok).
  destruct Bad as (y & Ey).
  - intros d Hd. discriminate.
  - repeat split.
  - reflexivity.
  - rewrite <- E1. apply surjective_pairing.
  - exact E2.
  - discriminate.
Qed.

(** An error while a transaction writes its files is not returned: the process panics. *)
Definition quiet {A} (m : M Stock StockError A) : Prop := forall s, snd (m s) <> Err PersistenceFailed.
Lemma quiet_bind {A B} (m : M Stock StockError A) (k : A -> M Stock StockError B) :
  quiet m -> (forall a, quiet (k a)) -> quiet (bind m k).
Proof.
  intros Q R s. unfold bind. specialize (Q s). destruct (m s) as [s1 [a|e|]]; cbn [snd] in *; [apply R|congruence|discriminate].
Qed.
Lemma quiet_stash {A} (m : M MemStash StashError A) : quiet (on_stash m).
Proof. intros s. unfold on_stash. destruct (m (sk_stash s)) as [t [a|e|]]; discriminate. Qed.
Lemma quiet_state {A} (m : M MemState StateError A) : quiet (on_state m).
Proof. intros s. unfold on_state. destruct (m (sk_state s)) as [t [a|e|]]; discriminate. Qed.
Lemma quiet_index {A} (m : M MemIndex IndexError A) : quiet (on_index m).
Proof. intros s. unfold on_index. destruct (m (sk_index s)) as [t [a|e|]]; discriminate. Qed.
Lemma quiet_mfor {A} (g : A -> M Stock StockError unit) l : (forall x, quiet (g x)) -> quiet (mfor g l).
Proof.
  intros Q. induction l as [|x l IH]; [intros s; discriminate|]. cbn [mfor]. apply quiet_bind; auto.
Qed.

Theorem C32_write_error_panics : forall (OG : OrdKey GlobalOut) H K C io c h h' r,
  (exists x y, c = SkAccept x y) \/ (exists x y, c = SkFascia x y) ->
  stock_call H K C io c h = (h', r) -> r <> Err PersistenceFailed.
Proof.
  intros OG H K C io c h h' r Hc E ->.
  assert (F : exists f, stock_call H K C io c = store_transaction C io f /\ quiet f).
  { destruct Hc as [(x & y & ->)|(x & y & ->)]; eexists; (split; [reflexivity|]).
    - apply quiet_bind; [intros s; discriminate|]. intros s. apply quiet_bind.
      { intros t. unfold lift. destruct (resolve_secrets H (sk_stash s) x); discriminate. }
      intros c'. apply quiet_bind; [apply quiet_state|intros _]. apply quiet_bind; [apply quiet_index|intros _].
      apply quiet_stash.
    - apply quiet_bind; [apply quiet_stash|intros _]. apply quiet_mfor. intros p. unfold fascia_bundle.
      apply quiet_bind; [intros s; destruct (known_subset (snd p)); discriminate|intros _].
      apply quiet_bind; [apply quiet_index|intros _]. apply quiet_bind; [apply quiet_state|intros _].
      apply quiet_bind; [apply quiet_stash|intros _]. intros s; discriminate. }
  destruct F as (f & Ef & Hf). rewrite Ef in E. unfold store_transaction, in_memory, bind in E.
  specialize (Hf (ho_stock h)). destruct (f (ho_stock h)) as [s [a|e|]]; cbn [snd] in *.
  - unfold rolled_back in E.
    match type of E with match ?m with _ => _ end = _ => destruct m as [h2 [b|[] |]] end; discriminate.
  - injection E as _ ->. congruence.
  - discriminate.
Qed.

(** The example consignment with a failing resolver: the hypotheses of the theorems above *)
Example C32_example : forall OG : OrdKey GlobalOut,
  let H := bit_hashes in
  let io := {| io_stash := IoDone; io_state := IoDone; io_index := IoDone |} in
  let x := stock_call H ex_merkle std_codecs io (SkAccept (ex_cons H ex_secret) no_witness) (fresh std_codecs) in
  snd x = Err (SkState (ResolverFailed {| w_layer := Bitcoin; w_txid := 8 |})) /\ all_done io /\
  ho_stock (fst x) <> sk_empty /\ ho_disk (fst x) = ho_disk (fresh std_codecs).
Proof.
  intros OG H io x. split; [vm_compute; reflexivity|]. split; [repeat split|]. split; [|vm_compute; reflexivity].
  intros E. apply (f_equal (fun s => len (ms_contracts (sk_state s)))) in E. vm_compute in E. discriminate.
Qed.

Print Assumptions C32_reload_partial.
Print Assumptions C32_kept_partial.
Print Assumptions C32_only_offered.
Print Assumptions C32_no_trace_refuted.
Print Assumptions C32_write_error_panics.

(** ** C33: crashes while storing *)

(** As long as calls succeed, the files hold the stock: a process started from them goes
    on with it. *)
Theorem C33_reload : forall (OG : OrdKey GlobalOut) H K C calls d,
  codecs_ok C -> calls_succeed H K C (fresh C) calls ->
  ho_disk (host_after H K C (fresh C) calls) = Some d ->
  load C d = Ok (ho_stock (host_after H K C (fresh C) calls)).
Proof.
  intros OG H K C calls d HC Hok. apply calls_sync; [exact HC| |exact Hok].
  intros d' E. injection E as <-. apply load_ok. destruct HC as (C1 & C2 & C3). cbn [d_stash d_state d_index fresh sk_stash sk_state sk_index ho_stock sk_empty].
  rewrite !read_enc by assumption. auto.
Qed.

(** Wherever a call stops or fails, what can be loaded from the files after it is the stock
    before or after the call, or for the two calls which write three files one of two
    mixtures: the index is new, and maybe the state. *)
Theorem C33_crash_partial : forall (OG : OrdKey GlobalOut) H K C io c h h' r d s,
  codecs_ok C -> in_sync C h -> stock_call H K C io c h = (h', r) ->
  ho_disk h' = Some d -> load C d = Ok s ->
  s = ho_stock h \/ s = ho_stock h' \/
  (((exists x y, c = SkAccept x y) \/ (exists x y, c = SkFascia x y)) /\ r <> Ok tt /\
   (s = parts (ho_stock h) (ho_stock h) (ho_stock h') \/ s = parts (ho_stock h) (ho_stock h') (ho_stock h'))).
Proof. intros OG H K C io c h h' r d s HC Hs E. apply (call_disk _ _ _ _ _ _ _ _ HC Hs E). Qed.

(** Such a mixture is mended by accepting the same consignment again: this gives the stock
    which the call would have left, had it not been interrupted. *)
Theorem C33_recover_partial : forall (OG : OrdKey GlobalOut) H K C io c r history h h' res d s,
  codecs_ok C -> in_sync C h -> collision_free H ->
  ho_stock h = stock_after H K sk_empty history ->
  (forall x, In x (SkAccept c r :: history) -> stock_call_ok H x) ->
  stock_call H K C io (SkAccept c r) h = (h', res) ->
  snd (accept_body H K c r (ho_stock h)) = Ok tt ->
  has_room (sk_index (ho_stock h')) -> shas_room (sk_state (ho_stock h')) ->
  ho_disk h' = Some d -> load C d = Ok s ->
  s = ho_stock h' \/ accept_body H K c r s = (ho_stock h', Ok tt).
Proof.
  intros OG H K C io c r history h h' res d s HC Hs HH Eh Hok E Ebody Ri Rs Hd Hl.
  assert (Ea : accept_body H K c r (ho_stock h) = (ho_stock h', Ok tt)).
  { rewrite (surjective_pairing (accept_body H K c r (ho_stock h))), Ebody. f_equal.
    pose proof (stock_call_stock H K C io (SkAccept c r) h) as Q. rewrite E in Q. symmetry. exact Q. }
  destruct (proj2 (call_disk _ _ _ _ _ _ _ _ HC Hs E) d s Hd Hl) as [->|[->|(_ & _ & Hp)]].
  - right. exact Ea.
  - left. reflexivity.
  - right. rewrite Eh in Ea. eapply accept_redo; [exact HH|exact Hok|exact Ea|exact Ri|exact Rs| | |];
      rewrite <- Eh; destruct Hp as [->| ->]; cbn; auto.
Qed.

(** The full property fails twice over.  If the process stops after the index was written,
    the stock loaded then is neither the one before nor the one after ... *)
Definition yes_witness : Resolver := fun _ => Some Tentative.
Definition ios (a b c : Io) : Ios := {| io_stash := a; io_state := b; io_index := c |}.
Theorem C33_mixture_refuted : forall OG : OrdKey GlobalOut, ~ forall H K C io c h h' d s,
  codecs_ok C -> h = fresh C -> stock_call H K C io c h = (h', Err ProcessStopped) ->
  ho_disk h' = Some d -> load C d = Ok s -> s = ho_stock h \/ s = ho_stock h'.
Proof.
  intros OG Bad. pose (H := bit_hashes).
  pose (c := SkAccept (ex_cons H ex_secret) yes_witness).
  pose (x := stock_call H ex_merkle std_codecs (ios IoDone (IoStop None) IoDone) c (fresh std_codecs)).
  pose (new := fst (stock_body H ex_merkle c sk_empty)).
  assert (Eb : stock_body H ex_merkle c sk_empty = (new, Ok tt)) by (vm_compute; reflexivity).
  pose (d := {| d_stash := Some (enc (co_stash std_codecs) st_empty); d_state := Some (enc (co_state std_codecs) ms_empty);
                d_index := Some (enc (co_index std_codecs) (sk_index new)) |}).
  assert (Ex : x = ({| ho_stock := new; ho_disk := Some d |}, Err ProcessStopped)).
  { unfold x. rewrite stock_call_split. cbn [ho_stock fresh]. rewrite Eb. reflexivity. }
  destruct std_codecs_ok as (C1 & C2 & C3).
  assert (El : load std_codecs d = Ok (parts sk_empty sk_empty new)).
  { apply load_ok. split; [apply read_enc, C1|]. split; [apply read_enc, C2|apply read_enc, C3]. }
  destruct (Bad H ex_merkle std_codecs (ios IoDone (IoStop None) IoDone) c (fresh std_codecs) _ d _ std_codecs_ok eq_refl Ex eq_refl El)
    as [F|F].
  - apply (f_equal (fun s => len (mi_contracts (sk_index s)))) in F. vm_compute in F. discriminate.
  - apply (f_equal (fun s => len (st_geneses (sk_stash s)))) in F. vm_compute in F. discriminate.
Qed.

(** ... and if it stops while a file is being written, the stock cannot be loaded at all:
    the file was emptied before. *)
Theorem C33_torn_file_refuted : forall OG : OrdKey GlobalOut, ~ forall H K C io c h h' d,
  codecs_ok C -> h = fresh C -> stock_call H K C io c h = (h', Err ProcessStopped) ->
  ho_disk h' = Some d -> exists s, load C d = Ok s.
Proof.
  intros OG Bad. pose (H := bit_hashes).
  destruct (Bad H ex_merkle std_codecs (ios (IoStop (Some 3%nat)) IoDone IoDone) (SkSeal ex_secret) (fresh std_codecs)
    (fst (stock_call H ex_merkle std_codecs (ios (IoStop (Some 3%nat)) IoDone IoDone) (SkSeal ex_secret) (fresh std_codecs)))
    {| d_stash := Some (firstn 3 (enc (co_stash std_codecs) (with_seals [ex_secret] st_empty)));
       d_state := Some (enc (co_state std_codecs) ms_empty); d_index := Some (enc (co_index std_codecs) mi_empty) |})
    as (s & Es).
  - exact std_codecs_ok.
  - reflexivity.
  - vm_compute. reflexivity.
  - vm_compute. reflexivity.
  - vm_compute in Es. discriminate.
Qed.

(** The hypotheses of these theorems hold when the example consignment is accepted by an
    empty stock and the process stops before the state is written; accepting it again from
    the files gives the stock with one contract. *)
Example C33_example : forall OG : OrdKey GlobalOut,
  let H := bit_hashes in
  let c := SkAccept (ex_cons H ex_secret) yes_witness in
  let x := stock_call H ex_merkle std_codecs (ios IoDone (IoStop None) IoDone) c (fresh std_codecs) in
  snd x = Err ProcessStopped /\ in_sync std_codecs (fresh std_codecs) /\ stock_call_ok H c /\
  snd (stock_body H ex_merkle c (ho_stock (fresh std_codecs))) = Ok tt /\
  has_room (sk_index (ho_stock (fst x))) /\ shas_room (sk_state (ho_stock (fst x))) /\
  calls_succeed H ex_merkle std_codecs (fresh std_codecs)
    [(c, ios IoDone IoDone IoDone); (SkSeal ex_secret, ios IoDone IoDone IoDone)] /\
  (exists d s, ho_disk (fst x) = Some d /\ load std_codecs d = Ok s /\ s <> ho_stock (fst x) /\ s <> sk_empty).
Proof.
  intros OG H c x.
  split; [vm_compute; reflexivity|].
  split. { intros d E. injection E as <-. vm_compute. reflexivity. }
  assert (So : forall (k : N) (o : TypedAssigns), msorted [(k, o)]) by (intros; repeat constructor).
  split. { split; [apply (C26_stash_again_nonvacuous H bit_collision_free)|]. split; [split; [apply So|constructor]|].
    split; [intros e []|]. intros wb o [<-|[]] [<-|[]]. split; [apply So|constructor]. }
  split; [vm_compute; reflexivity|].
  assert (Fa : forall {K' V} `{OrdKey K'} (P : V -> Prop) (m : omap K' V), Forall (fun p => P (snd p)) m ->
    forall k v, mget k m = Some v -> P v).
  { intros K' V O P m F k v E. apply mget_In in E. rewrite Forall_forall in F. exact (F _ E). }
  split. { unfold has_room. split; [vm_compute; reflexivity|]. split; [vm_compute; reflexivity|]. split; [vm_compute; reflexivity|].
    split; [vm_compute; reflexivity|]. split; [vm_compute; reflexivity|].
    split; [|split].
    - apply (Fa _ _ _ (fun ws => len ws < U8MAX)). vm_compute. repeat constructor.
    - apply (Fa _ _ _ (fun os => len os < U8MAX)). vm_compute. repeat constructor.
    - apply (Fa _ _ _ (fun ci => len (ci_outs ci) < U24MAX /\ forall out os, mget out (ci_outs ci) = Some os -> len os < U24MAX)).
      match goal with |- Forall _ ?m => let m' := eval vm_compute in m in change m with m' end.
      constructor; [|constructor]. cbn [snd ci_outs]. split; [vm_compute; reflexivity|]. intros out os E. discriminate E. }
  split. { unfold shas_room. split; [vm_compute; reflexivity|]. split; [vm_compute; reflexivity|].
    apply (Fa _ _ _ (fun cs => (forall k, len (cs_outs k cs) < U32MAX) /\
       (forall ty g, mget ty (cs_global cs) = Some g -> len (mg_known g) < U32MAX))).
    match goal with |- Forall _ ?m => let m' := eval vm_compute in m in change m with m' end.
    constructor; [|constructor]. cbn [snd]. split; [intros []; vm_compute; reflexivity|]. intros ty g E. discriminate E. }
  split; [repeat split; vm_compute; reflexivity|].
  do 2 eexists. split; [vm_compute; reflexivity|]. split; [vm_compute; reflexivity|].
  split; intros E.
  - apply (f_equal (fun s => len (st_geneses (sk_stash s)))) in E. vm_compute in E. discriminate.
  - apply (f_equal (fun s => len (mi_contracts (sk_index s)))) in E. vm_compute in E. discriminate.
Qed.

Print Assumptions C33_reload.
Print Assumptions C33_crash_partial.
Print Assumptions C33_recover_partial.
Print Assumptions C33_mixture_refuted.
Print Assumptions C33_torn_file_refuted.

(** ** C26: the whole stock *)

(** Accepting a consignment again, with no collection full, changes nothing that can be
    asked of the stock; or it fails because a collection of the stash is full. *)
Theorem C26_accept_again_partial : forall (OG : OrdKey GlobalOut) H K c r history s1,
  let s := stock_after H K sk_empty history in
  collision_free H -> (forall x, In x (SkAccept c r :: history) -> stock_call_ok H x) ->
  accept_body H K c r s = (s1, Ok tt) ->
  has_room (sk_index s1) -> shas_room (sk_state s1) ->
  sigs_room (c_signatures c) (sk_stash s) -> sigs_room (c_signatures c) (sk_stash s1) ->
  exists s2 res, accept_body H K c r s1 = (s2, res) /\ sk_state s2 = sk_state s1 /\ sk_index s2 = sk_index s1 /\
    (res = Err (SkStash StashFull) \/ res = Ok tt /\ same_view (sk_stash s1) (sk_stash s2)).
Proof. intros OG. exact accept_twice. Qed.
Print Assumptions C26_accept_again_partial.

(** Its hypotheses hold for the example consignment and an empty stock. *)
Example C26_accept_again_example : forall OG : OrdKey GlobalOut,
  let H := bit_hashes in
  let c := ex_cons H ex_secret in
  let x := accept_body H ex_merkle c yes_witness sk_empty in
  snd x = Ok tt /\ sigs_room (c_signatures c) st_empty /\ sigs_room (c_signatures c) (sk_stash (fst x)) /\
  len (ms_contracts (sk_state (fst x))) = 1 /\ len (mi_bundle_witness (sk_index (fst x))) = 1.
Proof.
  intros OG H c x. split; [vm_compute; reflexivity|].
  split; [vm_compute; repeat split; try discriminate; intros y sigs [E|[]]; injection E as <- <-; discriminate|].
  split; [vm_compute; repeat split; try discriminate; intros y sigs [E|[]]; injection E as <- <-; discriminate|].
  vm_compute. auto.
Qed.
