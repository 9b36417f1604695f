(** * The stock: proofs about files, failures and components *)
From Verif Require Import Base StM Core ContainerModel PIndexModel PIndexSpec PIndexProofs.
From Verif Require Import StateModel StateSpec StateProofs StashModel StashSpec StashProofs StockModel StockSpec.

Section Stock.
Context {OG : OrdKey GlobalOut}.

(** ** One call: its work in memory, then its files *)

Definition commit (C : Codecs) (io : Ios) (c : StockCall) : M Host StockError unit :=
  match c with
  | SkAccept _ _ | SkFascia _ _ =>
      rolled_back (commit_index C io ;;! commit_state C io ;;! commit_stash C io)
  | SkKit _ | SkSeal _ => commit_stash C io
  | SkUpdate _ _ => commit_state C io
  | SkStore => store C io
  end.

Lemma stock_call_split H K C io c h :
  stock_call H K C io c h =
  match stock_body H K c (ho_stock h) with
  | (s, Ok _) => commit C io c {| ho_stock := s; ho_disk := ho_disk h |}
  | (s, Err e) => ({| ho_stock := s; ho_disk := ho_disk h |}, Err e)
  | (s, Panic) => ({| ho_stock := s; ho_disk := ho_disk h |}, Panic)
  end.
Proof.
  destruct c as [c r|f r|k|x|r after|]; cbn [stock_call stock_body commit];
    unfold store_transaction, bind, in_memory.
  - destruct (accept_body H K c r (ho_stock h)) as [s [a|e|]]; reflexivity.
  - destruct (fascia_body H f r (ho_stock h)) as [s [a|e|]]; reflexivity.
  - destruct (on_stash (consume_kit k) (ho_stock h)) as [s [a|e|]]; reflexivity.
  - destruct (on_stash (store_secret_seal x) (ho_stock h)) as [s [a|e|]]; reflexivity.
  - destruct (on_state (update_witnesses r after) (ho_stock h)) as [s [a|e|]]; reflexivity.
  - destruct h as [s d]. reflexivity.
Qed.

Lemma commit_stock C io c h : ho_stock (fst (commit C io c h)) = ho_stock h.
Proof.
  destruct h as [s [d|]], io as [a b e]; destruct c; cbn -[enc];
    unfold rolled_back, store, commit_stash, commit_state, commit_index, bind; cbn -[enc];
    destruct a, b, e; reflexivity.
Qed.

Lemma commit_memory C io c h : ho_disk h = None -> commit C io c h = (h, Ok tt).
Proof.
  destruct h as [s d]. simpl. intros ->.
  destruct c; reflexivity.
Qed.

Lemma stock_call_stock H K C io c h :
  ho_stock (fst (stock_call H K C io c h)) = fst (stock_body H K c (ho_stock h)).
Proof.
  rewrite stock_call_split. destruct (stock_body H K c (ho_stock h)) as [s [a|e|]]; try reflexivity.
  apply commit_stock.
Qed.

(** The files a call writes *)
Definition writes_stash (c : StockCall) : bool := match c with SkUpdate _ _ => false | _ => true end.
Definition writes_state (c : StockCall) : bool := match c with SkKit _ | SkSeal _ => false | _ => true end.
Definition writes_index (c : StockCall) : bool :=
  match c with SkAccept _ _ | SkFascia _ _ | SkStore => true | _ => false end.

(** A file after a write that may have been cut short *)
Definition maybe {A} (C : Codec A) (old new : A) (f : option (list N)) : Prop :=
  forall x, read_file C f = Ok x -> x = old \/ x = new.
Definition wrote {A} (C : Codec A) (new : A) (f : option (list N)) : Prop := f = Some (enc C new).

Lemma read_enc {A} (C : Codec A) x : codec_ok C -> read_file C (Some (enc C x)) = Ok x.
Proof. intros [Hr _]. simpl. rewrite Hr. reflexivity. Qed.

Lemma read_cut {A} (C : Codec A) x n : codec_ok C ->
  read_file C (Some (firstn n (enc C x))) = Ok x \/
  read_file C (Some (firstn n (enc C x))) = Err PersistenceFailed.
Proof.
  intros [Hr Hp]. simpl. destruct (Nat.lt_ge_cases n (length (enc C x))) as [Hlt|Hge].
  - right. rewrite Hp by exact Hlt. reflexivity.
  - left. rewrite firstn_all2 by exact Hge. rewrite Hr. reflexivity.
Qed.

Lemma write_file_read {A} (C : Codec A) old new io f f' r : codec_ok C ->
  read_file C f = Ok old -> write_file (enc C new) io f = (f', r) ->
  maybe C old new f' /\ (r = Ok tt -> read_file C f' = Ok new).
Proof.
  intros HC Hf E. unfold write_file in E.
  destruct io as [|[n|]|[n|]]; injection E as <- <-.
  - rewrite read_enc by exact HC. split; [|reflexivity].
    intros x Hx. rewrite read_enc in Hx by exact HC. apply Ok_inj in Hx. subst. auto.
  - split; [|discriminate]. intros x Hx. simpl cut in Hx.
    destruct (read_cut C new n HC) as [E|E]; rewrite E in Hx; [|discriminate].
    apply Ok_inj in Hx. subst. auto.
  - split; [|discriminate]. intros x Hx. simpl cut in Hx. rewrite Hf in Hx. apply Ok_inj in Hx. subst. auto.
  - split; [|discriminate]. intros x Hx. simpl cut in Hx.
    destruct (read_cut C new n HC) as [E|E]; rewrite E in Hx; [|discriminate].
    apply Ok_inj in Hx. subst. auto.
  - split; [|discriminate]. intros x Hx. simpl cut in Hx. rewrite Hf in Hx. apply Ok_inj in Hx. subst. auto.
Qed.

Lemma load_ok C d s : load C d = Ok s <->
  read_file (co_stash C) (d_stash d) = Ok (sk_stash s) /\
  read_file (co_state C) (d_state d) = Ok (sk_state s) /\
  read_file (co_index C) (d_index d) = Ok (sk_index s).
Proof.
  unfold load, rbind. destruct s as [a b c]. simpl.
  destruct (read_file (co_stash C) (d_stash d)) as [x|e|]; simpl;
    [|split; [discriminate|intros (? & _); discriminate] ..].
  destruct (read_file (co_state C) (d_state d)) as [y|e|]; simpl;
    [|split; [discriminate|intros (_ & ? & _); discriminate] ..].
  destruct (read_file (co_index C) (d_index d)) as [z|e|]; simpl;
    [|split; [discriminate|intros (_ & _ & ?); discriminate] ..].
  split.
  - intros E. apply Ok_inj in E. injection E as -> -> ->. auto.
  - intros (E1 & E2 & E3). apply Ok_inj in E1, E2, E3. subst. reflexivity.
Qed.

(** ** After a transaction, however it ended *)

Lemma transaction_disk C io old new d h r c :
  (exists x y, c = SkAccept x y) \/ (exists x y, c = SkFascia x y) ->
  codecs_ok C -> load C d = Ok old ->
  commit C io c {| ho_stock := new; ho_disk := Some d |} = (h, r) ->
  ho_stock h = new /\ exists d', ho_disk h = Some d' /\
    (r = Ok tt -> load C d' = Ok new) /\
    (forall s, load C d' = Ok s ->
       s = old \/ s = parts old old new \/ s = parts old new new \/ s = new).
Proof.
  intros Hc (C1 & C2 & C3) Hl E.
  assert (E' : rolled_back (commit_index C io ;;! commit_state C io ;;! commit_stash C io)
                 {| ho_stock := new; ho_disk := Some d |} = (h, r))
    by (destruct Hc as [(x & y & ->)|(x & y & ->)]; exact E).
  clear E Hc. apply load_ok in Hl as (L1 & L2 & L3).
  destruct d as [fs ft fi]. simpl in *.
  unfold rolled_back, bind, commit_index in E'. cbn [ho_disk ho_stock d_stash d_state d_index] in E'.
  destruct (write_file (enc (co_index C) (sk_index new)) (io_index io) fi) as [fi' ri] eqn:Ei.
  destruct (write_file_read _ (sk_index old) _ _ _ _ _ C3 L3 Ei) as (Mi & Oi).
  assert (P1 : parts old old old = old) by (destruct old; reflexivity).
  assert (P2 : parts new new new = new) by (destruct new; reflexivity).
  destruct ri as [[]|e|].
  2:{ assert (ho_stock h = new /\ ho_disk h = Some {| d_stash := fs; d_state := ft; d_index := fi' |} /\ r <> Ok tt)
        as (-> & -> & Hr)
        by (destruct e; injection E' as <- <-; (split; [reflexivity|split; [reflexivity|discriminate]])).
      split; [reflexivity|]. eexists. split; [reflexivity|]. split; [tauto|].
      intros s Hs. apply load_ok in Hs as (S1 & S2 & S3). simpl in *.
      rewrite L1 in S1. rewrite L2 in S2. apply Ok_inj in S1, S2.
      destruct (Mi _ S3) as [Hx|Hx]; destruct s; simpl in *; subst; [left; exact P1|right; left; reflexivity]. }
  2:{ exfalso. unfold write_file in Ei. destruct (io_index io); discriminate. }
  specialize (Oi eq_refl).
  unfold commit_state in E'. cbn [ho_disk ho_stock d_stash d_state d_index] in E'.
  destruct (write_file (enc (co_state C) (sk_state new)) (io_state io) ft) as [ft' rt] eqn:Et.
  destruct (write_file_read _ (sk_state old) _ _ _ _ _ C2 L2 Et) as (Mt & Ot).
  destruct rt as [[]|e|].
  2:{ assert (ho_stock h = new /\ ho_disk h = Some {| d_stash := fs; d_state := ft'; d_index := fi' |} /\ r <> Ok tt)
        as (-> & -> & Hr)
        by (destruct e; injection E' as <- <-; (split; [reflexivity|split; [reflexivity|discriminate]])).
      split; [reflexivity|]. eexists. split; [reflexivity|]. split; [tauto|].
      intros s Hs. apply load_ok in Hs as (S1 & S2 & S3). simpl in *.
      rewrite L1 in S1. rewrite Oi in S3. apply Ok_inj in S1, S3.
      destruct (Mt _ S2) as [Hx|Hx]; destruct s; simpl in *; subst;
        [right; left; reflexivity|right; right; left; reflexivity]. }
  2:{ exfalso. unfold write_file in Et. destruct (io_state io); discriminate. }
  specialize (Ot eq_refl).
  unfold commit_stash in E'. cbn [ho_disk ho_stock d_stash d_state d_index] in E'.
  destruct (write_file (enc (co_stash C) (sk_stash new)) (io_stash io) fs) as [fs' rs] eqn:Es.
  destruct (write_file_read _ (sk_stash old) _ _ _ _ _ C1 L1 Es) as (Ms & Os).
  assert (ho_stock h = new /\ ho_disk h = Some {| d_stash := fs'; d_state := ft'; d_index := fi' |} /\
          (r = Ok tt -> rs = Ok tt)) as (-> & -> & Hr).
  { destruct rs as [[]|e|]; [|destruct e|]; injection E' as <- <-;
      (split; [reflexivity|split; [reflexivity|first [reflexivity|discriminate]]]). }
  split; [reflexivity|]. eexists. split; [reflexivity|]. split.
  - intros E. apply load_ok. simpl. auto.
  - intros s Hs. apply load_ok in Hs as (S1 & S2 & S3). simpl in *.
    rewrite Oi in S3. rewrite Ot in S2. apply Ok_inj in S2, S3.
    destruct (Ms _ S1) as [Hx|Hx]; destruct s; simpl in *; subst;
      [right; right; left; reflexivity|right; right; right; exact P2].
Qed.

(** Calls writing one file *)
Lemma single_disk C io old new d h r c :
  (exists x, c = SkKit x) \/ (exists x, c = SkSeal x) \/ (exists x y, c = SkUpdate x y) ->
  (match c with SkUpdate _ _ => new = parts old new old | _ => new = parts new old old end) ->
  codecs_ok C -> load C d = Ok old ->
  commit C io c {| ho_stock := new; ho_disk := Some d |} = (h, r) ->
  ho_stock h = new /\ exists d', ho_disk h = Some d' /\
    (r = Ok tt -> load C d' = Ok new) /\
    (forall s, load C d' = Ok s -> s = old \/ s = new).
Proof.
  intros Hc Hp (C1 & C2 & C3) Hl E. apply load_ok in Hl as (L1 & L2 & L3).
  destruct d as [fs ft fi]. simpl in *.
  assert (P1 : parts old old old = old) by (destruct old; reflexivity).
  assert (Hst : (match c with SkUpdate _ _ => False | _ => True end) ->
                commit_stash C io {| ho_stock := new;
                   ho_disk := Some {| d_stash := fs; d_state := ft; d_index := fi |} |} = (h, r) ->
                new = parts new old old ->
                ho_stock h = new /\ exists d', ho_disk h = Some d' /\
                (r = Ok tt -> load C d' = Ok new) /\
                (forall s, load C d' = Ok s -> s = old \/ s = new)).
  { intros _ E' Hn. unfold commit_stash in E'. cbn [ho_disk ho_stock d_stash d_state d_index] in E'.
    destruct (write_file (enc (co_stash C) (sk_stash new)) (io_stash io) fs) as [f' r'] eqn:Ew.
    destruct (write_file_read _ (sk_stash old) _ _ _ _ _ C1 L1 Ew) as (Mw & Ow).
    injection E' as <- <-. split; [reflexivity|]. eexists. split; [reflexivity|]. split.
    - intros Er. apply load_ok. simpl. rewrite Hn. unfold parts at 2 3. simpl. auto.
    - intros s Hs. apply load_ok in Hs as (S1 & S2 & S3). simpl in *.
      rewrite L2 in S2. rewrite L3 in S3. apply Ok_inj in S2, S3.
      destruct (Mw _ S1) as [Hx|Hx]; destruct s; simpl in *; subst; [left; exact P1|right; symmetry; exact Hn]. }
  destruct Hc as [(x & ->)|[(x & ->)|(x & y & ->)]]; simpl in Hp, E; [apply Hst; auto|apply Hst; auto|].
  unfold commit_state in E. cbn [ho_disk ho_stock d_stash d_state d_index] in E.
  destruct (write_file (enc (co_state C) (sk_state new)) (io_state io) ft) as [f' r'] eqn:Ew.
  destruct (write_file_read _ (sk_state old) _ _ _ _ _ C2 L2 Ew) as (Mw & Ow).
  injection E as <- <-. split; [reflexivity|]. eexists. split; [reflexivity|]. split.
  - intros Er. apply load_ok. simpl. rewrite Hp. unfold parts at 1 3. simpl. auto.
  - intros s Hs. apply load_ok in Hs as (S1 & S2 & S3). simpl in *.
    rewrite L1 in S1. rewrite L3 in S3. apply Ok_inj in S1, S3.
    destruct (Mw _ S2) as [Hx|Hx]; destruct s; simpl in *; subst; [left; exact P1|right; symmetry; exact Hp].
Qed.

(** What single-part calls change in memory *)
Lemma on_stash_parts {A} (m : M MemStash StashError A) s :
  fst (on_stash m s) = parts (fst (on_stash m s)) s s.
Proof. unfold on_stash. destruct (m (sk_stash s)). reflexivity. Qed.
Lemma on_state_parts {A} (m : M MemState StateError A) s :
  fst (on_state m s) = parts s (fst (on_state m s)) s.
Proof. unfold on_state. destruct (m (sk_state s)). reflexivity. Qed.

Lemma fst_bind_ret {S E A} (m : M S E A) s : fst ((m ;;! ret tt) s) = fst (m s).
Proof. unfold bind. destruct (m s) as [s' [a|e|]]; reflexivity. Qed.

Lemma body_parts H K c s :
  match c with
  | SkUpdate _ _ => fst (stock_body H K c s) = parts s (fst (stock_body H K c s)) s
  | SkKit _ | SkSeal _ => fst (stock_body H K c s) = parts (fst (stock_body H K c s)) s s
  | SkStore => fst (stock_body H K c s) = s
  | _ => True
  end.
Proof.
  destruct c; cbn [stock_body]; auto.
  - apply on_stash_parts.
  - rewrite fst_bind_ret. apply on_stash_parts.
Qed.

Lemma store_sync C io s d h r :
  codecs_ok C -> load C d = Ok s -> store C io {| ho_stock := s; ho_disk := Some d |} = (h, r) ->
  ho_stock h = s /\ exists d', ho_disk h = Some d' /\ (r = Ok tt -> load C d' = Ok s) /\
    forall s', load C d' = Ok s' -> s' = s.
Proof.
  intros (C1 & C2 & C3) Hl E. apply load_ok in Hl as (L1 & L2 & L3). destruct d as [fs ft fi]. simpl in *.
  assert (P1 : forall s', sk_stash s' = sk_stash s -> sk_state s' = sk_state s -> sk_index s' = sk_index s -> s' = s)
    by (intros [] ? ? ?; destruct s; simpl in *; congruence).
  unfold store, bind, commit_stash in E. cbn [ho_disk ho_stock d_stash d_state d_index] in E.
  destruct (write_file (enc (co_stash C) (sk_stash s)) (io_stash io) fs) as [fs' rs] eqn:Es.
  destruct (write_file_read _ (sk_stash s) _ _ _ _ _ C1 L1 Es) as (Ms & Os).
  assert (Ms' : forall x, read_file (co_stash C) fs' = Ok x -> x = sk_stash s) by (intros x Hx; destruct (Ms x Hx); auto).
  destruct rs as [[]|e|].
  2:{ injection E as <- <-. split; [reflexivity|]. eexists. split; [reflexivity|]. split; [discriminate|].
      intros s' Hs. apply load_ok in Hs as (S1 & S2 & S3). simpl in *.
      rewrite L2 in S2. rewrite L3 in S3. apply Ok_inj in S2, S3. apply P1; auto. }
  2:{ exfalso. unfold write_file in Es. destruct (io_stash io); discriminate. }
  specialize (Os eq_refl).
  unfold commit_state in E. cbn [ho_disk ho_stock d_stash d_state d_index] in E.
  destruct (write_file (enc (co_state C) (sk_state s)) (io_state io) ft) as [ft' rt] eqn:Et.
  destruct (write_file_read _ (sk_state s) _ _ _ _ _ C2 L2 Et) as (Mt & Ot).
  assert (Mt' : forall x, read_file (co_state C) ft' = Ok x -> x = sk_state s) by (intros x Hx; destruct (Mt x Hx); auto).
  destruct rt as [[]|e|].
  2:{ injection E as <- <-. split; [reflexivity|]. eexists. split; [reflexivity|]. split; [discriminate|].
      intros s' Hs. apply load_ok in Hs as (S1 & S2 & S3). simpl in *.
      rewrite L3 in S3. apply Ok_inj in S3. apply P1; auto. }
  2:{ exfalso. unfold write_file in Et. destruct (io_state io); discriminate. }
  specialize (Ot eq_refl).
  unfold commit_index in E. cbn [ho_disk ho_stock d_stash d_state d_index] in E.
  destruct (write_file (enc (co_index C) (sk_index s)) (io_index io) fi) as [fi' ri] eqn:Ei.
  destruct (write_file_read _ (sk_index s) _ _ _ _ _ C3 L3 Ei) as (Mi & Oi).
  assert (Mi' : forall x, read_file (co_index C) fi' = Ok x -> x = sk_index s) by (intros x Hx; destruct (Mi x Hx); auto).
  injection E as <- <-. split; [reflexivity|]. eexists. split; [reflexivity|]. split.
  - intros Hr. apply load_ok. simpl. auto.
  - intros s' Hs. apply load_ok in Hs as (S1 & S2 & S3). simpl in *. apply P1; auto.
Qed.

(** Every call on a stock whose files are up to date *)
Lemma call_disk H K C io c h h' r :
  codecs_ok C -> in_sync C h -> stock_call H K C io c h = (h', r) ->
  (r = Ok tt -> in_sync C h') /\
  forall d s, ho_disk h' = Some d -> load C d = Ok s ->
    s = ho_stock h \/ s = ho_stock h' \/
    (((exists x y, c = SkAccept x y) \/ (exists x y, c = SkFascia x y)) /\ r <> Ok tt /\
     (s = parts (ho_stock h) (ho_stock h) (ho_stock h') \/
      s = parts (ho_stock h) (ho_stock h') (ho_stock h'))).
Proof.
  intros HC Hs E. rewrite stock_call_split in E.
  destruct h as [old dk]. unfold in_sync in *. cbn [ho_stock ho_disk] in *.
  destruct dk as [d0|].
  2:{ assert (Hd : ho_disk h' = None).
      { destruct (stock_body H K c old) as [s [a|e|]]; [|injection E as <- <-; reflexivity ..].
        rewrite commit_memory in E by reflexivity. injection E as <- <-. reflexivity. }
      rewrite Hd. split; intros; discriminate. }
  specialize (Hs d0 eq_refl).
  pose proof (body_parts H K c old) as Hb.
  destruct (stock_body H K c old) as [new [a|e|]] eqn:Eb.
  2,3: injection E as <- <-; split; [discriminate|]; intros d s Hd Hl; cbn [ho_disk] in Hd;
       apply Some_inj in Hd; subst d; rewrite Hs in Hl; apply Ok_inj in Hl; auto.
  assert (Hcase : ((exists x y, c = SkAccept x y) \/ (exists x y, c = SkFascia x y)) \/
                  ((exists x, c = SkKit x) \/ (exists x, c = SkSeal x) \/ (exists x y, c = SkUpdate x y)) \/
                  c = SkStore) by (destruct c; eauto 8).
  destruct Hcase as [Hc|[Hc|Hc]].
  - destruct (transaction_disk C io old new d0 h' r c Hc HC Hs E) as (-> & d' & Hd & Ho & Hm).
    rewrite Hd. split.
    + intros Er d Ed. apply Some_inj in Ed. subst. auto.
    + intros d s Ed Hl. apply Some_inj in Ed. subst d'.
      destruct r as [[]|e|]; [rewrite (Ho eq_refl) in Hl; apply Ok_inj in Hl; auto| |];
      (destruct (Hm s Hl) as [Hx|[Hx|[Hx|Hx]]]; auto; right; right; split; auto; split; auto; discriminate).
  - assert (Hp : match c with SkUpdate _ _ => new = parts old new old | _ => new = parts new old old end)
      by (destruct Hc as [(x & ->)|[(x & ->)|(x & y & ->)]]; exact Hb).
    destruct (single_disk C io old new d0 h' r c Hc Hp HC Hs E) as (-> & d' & Hd & Ho & Hm).
    rewrite Hd. split.
    + intros Er d Ed. apply Some_inj in Ed. subst. auto.
    + intros d s Ed Hl. apply Some_inj in Ed. subst d'. destruct (Hm s Hl); auto.
  - subst c. cbn [fst] in Hb. subst new. cbn [commit] in E.
    destruct (store_sync C io old d0 h' r HC Hs E) as (-> & d' & Hd & Ho & Hm).
    rewrite Hd. split.
    + intros Er d Ed. apply Some_inj in Ed. subst. auto.
    + intros d s Ed Hl. apply Some_inj in Ed. subst d'. left. auto.
Qed.

Lemma calls_sync H K C l h :
  codecs_ok C -> in_sync C h -> calls_succeed H K C h l -> in_sync C (host_after H K C h l).
Proof.
  intros HC. revert h. induction l as [|[c io] l IH]; intros h Hs Hok; [exact Hs|].
  destruct Hok as [Ho Hok]. cbn [fst snd] in *. cbn [host_after fold_left fst snd]. apply IH; [|exact Hok].
  destruct (stock_call H K C io c h) as [h' r] eqn:E. cbn [fst snd] in *.
  exact (proj1 (call_disk _ _ _ _ _ _ _ _ HC Hs E) Ho).
Qed.

Lemma commit_done C io c h : all_done io -> snd (commit C io c h) = Ok tt.
Proof.
  intros (A & B & D). destruct h as [s [[fs ft fi]|]], io; simpl in *; subst;
    destruct c; reflexivity.
Qed.

(** A call that fails before its files are written leaves them as they are. *)
Lemma failed_disk H K C io c h h' r :
  stock_call H K C io c h = (h', r) -> r <> Ok tt ->
  all_done io \/ (exists e, r = Err e /\ e <> PersistenceFailed /\ e <> ProcessStopped) ->
  ho_disk h' = ho_disk h.
Proof.
  intros E Hr Hw. rewrite stock_call_split in E.
  destruct (stock_body H K c (ho_stock h)) as [new [a|e|]]; [|injection E as <- <-; reflexivity ..].
  exfalso. destruct Hw as [Hd|(e & -> & N1 & N2)].
  - apply Hr. rewrite <- (commit_done C io c {| ho_stock := new; ho_disk := ho_disk h |} Hd). rewrite E. reflexivity.
  - clear Hr. destruct h as [s [[fs ft fi]|]], io as [a1 a2 a3]; simpl in *.
    2: rewrite commit_memory in E by reflexivity; discriminate.
    destruct c; cbn -[enc] in E;
      unfold rolled_back, store, commit_stash, commit_state, commit_index, bind in E; cbn -[enc] in E;
      destruct a1, a2, a3; cbn -[enc] in E; first [discriminate E|injection E as _ He; congruence].
Qed.

(** ** The parts as histories of their own *)


(** The calls to a part a call to the stock may make *)
Definition index_of (H : Hashes) (c : StockCall) (s : Stock) (x : IndexCall) : Prop :=
  match c with
  | SkAccept c r => exists c', resolve_secrets H (sk_stash s) c = Ok c' /\ x = IxConsignment c'
  | SkFascia f r => exists p, In p (fascia_bundles f) /\ x = IxBundle (fst p) (snd p) (fascia_witness_id f)
  | _ => False
  end.
Definition state_of (H : Hashes) (c : StockCall) (s : Stock) (x : StateCall) : Prop :=
  match c with
  | SkAccept c r => exists c', resolve_secrets H (sk_stash s) c = Ok c' /\ x = StConsignment c' r
  | SkFascia f r => exists p, In p (fascia_bundles f) /\ x = StBundle (fst p) (snd p) (fascia_witness_id f) r
  | SkUpdate r after => x = StUpdate r after
  | _ => False
  end.
Definition stash_of (H : Hashes) (c : StockCall) (s : Stock) (x : StashCall) : Prop :=
  match c with
  | SkAccept c r => exists c', resolve_secrets H (sk_stash s) c = Ok c' /\ x = ShConsignment c'
  | SkFascia f r => x = ShWitness {| sw_public := fa_witness f; sw_anchors := fa_anchor f |} \/
                    exists p, In p (fascia_bundles f) /\ x = ShBundle (snd p)
  | SkKit k => x = ShKit k
  | SkSeal y => x = ShSeal y
  | _ => False
  end.

(** [s'] comes from [s] by calls to the parts out of the given sets. *)
Definition moved (H : Hashes) (K : Merkle) (Ix : IndexCall -> Prop) (St : StateCall -> Prop)
  (Sh : StashCall -> Prop) (s s' : Stock) : Prop :=
  (exists l, sk_index s' = index_calls H l (sk_index s) /\ forall x, In x l -> Ix x) /\
  (exists l, sk_state s' = state_calls H l (sk_state s) /\ forall x, In x l -> St x) /\
  (exists l, sk_stash s' = stash_after H K (sk_stash s) l /\ forall x, In x l -> Sh x).

Lemma moved_refl H K Ix St Sh s : moved H K Ix St Sh s s.
Proof. repeat split; exists []; (split; [reflexivity|intros x []]). Qed.

Lemma stash_after_app H K s l1 l2 : stash_after H K s (l1 ++ l2) = stash_after H K (stash_after H K s l1) l2.
Proof. apply fold_left_app. Qed.

Lemma moved_trans H K Ix St Sh s1 s2 s3 :
  moved H K Ix St Sh s1 s2 -> moved H K Ix St Sh s2 s3 -> moved H K Ix St Sh s1 s3.
Proof.
  intros ((l1 & E1 & P1) & (l2 & E2 & P2) & (l3 & E3 & P3))
         ((m1 & F1 & Q1) & (m2 & F2 & Q2) & (m3 & F3 & Q3)).
  split; [|split].
  - exists (l1 ++ m1). rewrite index_calls_app, <- E1. split; [exact F1|].
    intros x Hx. apply in_app_iff in Hx as [?|?]; auto.
  - exists (l2 ++ m2). rewrite state_calls_app, <- E2. split; [exact F2|].
    intros x Hx. apply in_app_iff in Hx as [?|?]; auto.
  - exists (l3 ++ m3). rewrite stash_after_app, <- E3. split; [exact F3|].
    intros x Hx. apply in_app_iff in Hx as [?|?]; auto.
Qed.

Lemma moved_index H K (Ix : IndexCall -> Prop) (St : StateCall -> Prop) (Sh : StashCall -> Prop) s x : Ix x -> moved H K Ix St Sh s (fst (on_index (index_call H x) s)).
Proof.
  intros Hx. unfold on_index. destruct (index_call H x (sk_index s)) as [i r] eqn:E. simpl. split; [|split].
  - exists [x]. simpl. rewrite E. split; [reflexivity|]. intros y [<-|[]]. exact Hx.
  - exists []. split; [reflexivity|intros y []].
  - exists []. split; [reflexivity|intros y []].
Qed.
Lemma moved_state H K (Ix : IndexCall -> Prop) (St : StateCall -> Prop) (Sh : StashCall -> Prop) s x : St x -> moved H K Ix St Sh s (fst (on_state (state_call H x) s)).
Proof.
  intros Hx. unfold on_state. destruct (state_call H x (sk_state s)) as [i r] eqn:E. simpl. split; [|split].
  - exists []. split; [reflexivity|intros y []].
  - exists [x]. simpl. rewrite E. split; [reflexivity|]. intros y [<-|[]]. exact Hx.
  - exists []. split; [reflexivity|intros y []].
Qed.
Lemma moved_stash H K (Ix : IndexCall -> Prop) (St : StateCall -> Prop) (Sh : StashCall -> Prop) s x : Sh x -> moved H K Ix St Sh s (fst (on_stash (stash_call H K x) s)).
Proof.
  intros Hx. unfold on_stash. destruct (stash_call H K x (sk_stash s)) as [i r] eqn:E. simpl. split; [|split].
  - exists []. split; [reflexivity|intros y []].
  - exists []. split; [reflexivity|intros y []].
  - exists [x]. simpl. rewrite E. split; [reflexivity|]. intros y [<-|[]]. exact Hx.
Qed.

Lemma moved_bind H K Ix St Sh {A B} (m : M Stock StockError A) (k : A -> M Stock StockError B) s :
  moved H K Ix St Sh s (fst (m s)) ->
  (forall a s1, m s = (s1, Ok a) -> moved H K Ix St Sh s1 (fst (k a s1))) ->
  moved H K Ix St Sh s (fst (bind m k s)).
Proof.
  intros M1 M2. unfold bind. destruct (m s) as [s1 [a|e|]] eqn:E; [|exact M1 ..].
  eapply moved_trans; [exact M1|]. exact (M2 a s1 eq_refl).
Qed.
Lemma moved_mfor H K Ix St Sh {A} (g : A -> M Stock StockError unit) l :
  (forall x s, In x l -> moved H K Ix St Sh s (fst (g x s))) ->
  forall s, moved H K Ix St Sh s (fst (mfor g l s)).
Proof.
  induction l as [|x l IH]; intros Hg s; [apply moved_refl|]. cbn [mfor].
  apply moved_bind; [apply Hg; left; reflexivity|].
  intros _ s1 _. apply IH. intros y s' Hy. apply Hg. right. exact Hy.
Qed.

(** A call whose result is dropped *)
Lemma on_stash_unit {A} (m : M MemStash StashError A) s :
  fst (on_stash m s) = fst (on_stash (m ;;! ret tt) s).
Proof.
  unfold on_stash, bind. destruct (m (sk_stash s)) as [s1 [a|e|]]; reflexivity.
Qed.

Lemma body_moved H K c s :
  moved H K (index_of H c s) (state_of H c s) (stash_of H c s) s (fst (stock_body H K c s)).
Proof.
  destruct c as [c r|f r|k|x|r after|]; cbn [stock_body].
  - unfold accept_body. apply moved_bind; [apply moved_refl|]. intros a s1 E1.
    injection E1 as <- <-. apply moved_bind.
    { unfold lift. apply moved_refl. }
    intros c' s2 E2. unfold lift in E2. injection E2 as <- E2.
    destruct (resolve_secrets H (sk_stash s) c) as [c2|e|] eqn:Er; try discriminate. simpl in E2.
    apply Ok_inj in E2. subst c2.
    apply moved_bind; [apply (moved_state H K _ _ _ s (StConsignment c' r)); simpl; eauto|].
    intros _ s3 _. apply moved_bind; [apply (moved_index H K _ _ _ s3 (IxConsignment c')); simpl; eauto|].
    intros _ s4 _. apply (moved_stash H K _ _ _ s4 (ShConsignment c')); simpl; eauto.
  - unfold fascia_body. apply moved_bind.
    { rewrite on_stash_unit. apply (moved_stash H K _ _ _ s (ShWitness _)). left. reflexivity. }
    intros _ s1 _. apply moved_mfor. intros p s2 Hp. unfold fascia_bundle.
    apply moved_bind.
    { destruct (known_subset (snd p)); apply moved_refl. }
    intros _ s3 _. apply moved_bind.
    { apply (moved_index H K _ _ _ s3 (IxBundle (fst p) (snd p) (fascia_witness_id f))). exists p. auto. }
    intros _ s4 _. apply moved_bind.
    { apply (moved_state H K _ _ _ s4 (StBundle (fst p) (snd p) (fascia_witness_id f) r)). exists p. auto. }
    intros _ s5 _. rewrite fst_bind_ret, on_stash_unit.
    apply (moved_stash H K _ _ _ s5 (ShBundle (snd p))). right. exists p. auto.
  - apply (moved_stash H K _ _ _ s (ShKit k)). reflexivity.
  - rewrite fst_bind_ret, on_stash_unit. apply (moved_stash H K _ _ _ s (ShSeal x)). reflexivity.
  - rewrite fst_bind_ret.
    change (fst (on_state (update_witnesses r after) s)) with (fst (on_state (state_call H (StUpdate r after)) s)).
    apply moved_state. reflexivity.
  - apply moved_refl.
Qed.

(** The stock of a process is the stock in memory. *)
Lemma host_stock H K C l h :
  ho_stock (host_after H K C h l) = stock_after H K (ho_stock h) (map fst l).
Proof.
  revert h. induction l as [|[c io] l IH]; intros h; [reflexivity|].
  cbn [host_after fold_left map fst snd stock_after]. unfold host_after in IH. rewrite IH, stock_call_stock.
  reflexivity.
Qed.

(** Calls of a whole history *)
Lemma after_moved H K l s :
  moved H K (fun x => exists c s0, In c l /\ index_of H c s0 x)
            (fun x => exists c s0, In c l /\ state_of H c s0 x)
            (fun x => exists c s0, In c l /\ stash_of H c s0 x)
            s (stock_after H K s l).
Proof.
  revert s. induction l as [|c l IH]; intros s; [apply moved_refl|].
  cbn [stock_after fold_left]. eapply moved_trans.
  - destruct (body_moved H K c s) as ((l1 & E1 & P1) & (l2 & E2 & P2) & (l3 & E3 & P3)).
    split; [|split]; eexists; (split; [eassumption|]); intros x Hx;
      exists c, s; (split; [left; reflexivity|]); auto.
  - destruct (IH (fst (stock_body H K c s))) as ((l1 & E1 & P1) & (l2 & E2 & P2) & (l3 & E3 & P3)).
    split; [|split]; eexists; (split; [eassumption|]); intros x Hx.
    + destruct (P1 x Hx) as (c' & s0 & Hin & Hx'). exists c', s0. split; [right; exact Hin|exact Hx'].
    + destruct (P2 x Hx) as (c' & s0 & Hin & Hx'). exists c', s0. split; [right; exact Hin|exact Hx'].
    + destruct (P3 x Hx) as (c' & s0 & Hin & Hx'). exists c', s0. split; [right; exact Hin|exact Hx'].
Qed.
End Stock.
