(** * C33: opening a stored stock, and storing it *)
From Verif Require Import Base StM Core Ser ContainerModel PIndexModel StateModel StashModel StashProps StockModel StockSpec StockProofs StockCodec StockProps.
Local Open Scope N_scope.

(** The file is there and holds [x]. *)
Definition holds_value {A} (C : Codec A) (f : option (list N)) (x : A) : Prop := exists bytes, f = Some bytes /\ dec C bytes = Some x.
(** The three files of a stock *)
Definition holds_stock (C : Codecs) (d : Disk) (s : Stock) : Prop :=
  holds_value (co_stash C) (d_stash d) (sk_stash s) /\ holds_value (co_state C) (d_state d) (sk_state s) /\ holds_value (co_index C) (d_index d) (sk_index s).

Lemma read_holds {A} (C : Codec A) f x : read_file C f = Ok x <-> holds_value C f x.
Proof.
  unfold read_file, holds_value. destruct f as [bytes|].
  - destruct (dec C bytes) as [y|] eqn:E; cbn; split.
    + intros [= <-]. exists bytes. auto.
    + intros (b & [= <-] & Eb). congruence.
    + discriminate.
    + intros (b & [= <-] & Eb). congruence.
  - split; [discriminate|]. intros (b & [=] & _).
Qed.
Lemma read_else {A} (C : Codec A) f : (exists x, read_file C f = Ok x) \/ read_file C f = Err PersistenceFailed.
Proof. unfold read_file. destruct f as [bytes|]; [|auto]. destruct (dec C bytes); cbn; eauto. Qed.

(** A stock is opened exactly if all its files are there and can be read, and it is what they
    hold; otherwise there is an error, never a panic. *)
Theorem C33_open : forall C d,
  match load C d with
  | Ok s => holds_stock C d s
  | Err e => e = PersistenceFailed /\ forall s, ~ holds_stock C d s
  | Panic => False
  end.
Proof.
  intros C d. unfold load, holds_stock.
  destruct (read_else (co_stash C) (d_stash d)) as [[x Ex]|Ex]; rewrite Ex; cbn [rbind].
  2:{ split; [reflexivity|]. intros s (A & _). apply read_holds in A. congruence. }
  destruct (read_else (co_state C) (d_state d)) as [[y Ey]|Ey]; rewrite Ey; cbn [rbind].
  2:{ split; [reflexivity|]. intros s (_ & A & _). apply read_holds in A. congruence. }
  destruct (read_else (co_index C) (d_index d)) as [[z Ez]|Ez]; rewrite Ez; cbn [rbind].
  2:{ split; [reflexivity|]. intros s (_ & _ & A). apply read_holds in A. congruence. }
  cbn [sk_stash sk_state sk_index]. apply read_holds in Ex, Ey, Ez. auto.
Qed.

(** What happens when the three files are written one after the other *)
Definition written (l : list Io) : result StockError unit :=
  match find (fun x => match x with IoDone => false | _ => true end) l with
  | None | Some IoDone => Ok tt
  | Some (IoFail _) => Err PersistenceFailed
  | Some (IoStop _) => Err ProcessStopped
  end.

(** Storing a stock returns what happened to the first file which was not written, and never
    panics; it changes no state in memory, and without files it does nothing.  When it returned
    success, the files hold the stock. *)
Theorem C33_store : forall C io h,
  let (h', r) := store C io h in
  ho_stock h' = ho_stock h /\
  match ho_disk h with
  | None => ho_disk h' = None /\ r = Ok tt
  | Some _ => r = written [io_stash io; io_state io; io_index io] /\
      (r = Ok tt -> (forall s, dec (co_stash C) (enc (co_stash C) s) = Some s) -> (forall s, dec (co_state C) (enc (co_state C) s) = Some s) ->
         (forall s, dec (co_index C) (enc (co_index C) s) = Some s) ->
       exists d, ho_disk h' = Some d /\ holds_stock C d (ho_stock h))
  end.
Proof.
  intros C io [s [d|]]; unfold store, commit_stash, commit_state, commit_index, bind, ret; cbn [ho_disk ho_stock]; [|auto].
  destruct (io_stash io); cbn [write_file ho_disk ho_stock d_stash d_state d_index]; [|(split; [reflexivity|]; split; [reflexivity|discriminate])..].
  destruct (io_state io); cbn [write_file ho_disk ho_stock d_stash d_state d_index]; [|(split; [reflexivity|]; split; [reflexivity|discriminate])..].
  destruct (io_index io); cbn [write_file ho_disk ho_stock d_stash d_state d_index]; [|(split; [reflexivity|]; split; [reflexivity|discriminate])..].
  split; [reflexivity|]. split; [reflexivity|]. intros _ D1 D2 D3. eexists. split; [reflexivity|].
  unfold holds_stock, holds_value. cbn [d_stash d_state d_index]. split; [eexists; split; [reflexivity|apply D1]|]. split; eexists; (split; [reflexivity|]); [apply D2|apply D3].
Qed.

(** A stock which has accepted a consignment and was stored is opened; without the second file
    there is the error. *)
Example C33_open_nonvacuous : forall OG : OrdKey GlobalOut,
  let s := fst (stock_body bit_hashes ex_merkle (SkAccept (ex_cons bit_hashes ex_secret) yes_witness) sk_empty) in
  let d := {| d_stash := Some (enc (co_stash std_codecs) (sk_stash s)); d_state := Some (enc (co_state std_codecs) (sk_state s));
              d_index := Some (enc (co_index std_codecs) (sk_index s)) |} in
  len (st_geneses (sk_stash s)) = 1 /\ load std_codecs d = Ok s /\
  load std_codecs {| d_stash := d_stash d; d_state := None; d_index := d_index d |} = Err PersistenceFailed.
Proof.
  intros OG s d. destruct std_codecs_ok as (C1 & C2 & C3). split; [vm_compute; reflexivity|]. unfold load, d. cbn [d_stash d_state d_index].
  rewrite !read_enc by assumption. cbn [rbind read_file]. split; [destruct s; reflexivity|reflexivity].
Qed.

Print Assumptions C33_open.
Print Assumptions C33_store.
Print Assumptions C33_open_nonvacuous.
