(** * What the text of an invoice says: property C81 *)
From Coq Require Import Ascii String.
From Verif Require Import Base Str AmountModel AmountSpec InvoiceModel InvoiceSpec InvoiceProofs ReadSpec ReadProofs ReadMain.
Local Open Scope N_scope.

(** The payloads of the identifiers of pay-to-vout beneficiaries are arrays of 34 bytes. *)
Definition payloads_ok (C : Codecs) : Prop := forall t l, baid_parse C t = Some l -> bytes 34 l.

(** A text is read as an invoice exactly if it has the form of one, and the invoice is what the
    parts of the text say. *)
Theorem C81_reads : forall C s i, payloads_ok C -> (invoice_from_str C s = Ok i <-> reads C s i).
Proof. intros C s i HB. exact (from_str_iff C HB s i). Qed.

(** So a text has one reading, *)
Theorem C81_one : forall C s i i', payloads_ok C -> reads C s i -> reads C s i' -> i = i'.
Proof. intros C s i i' HB A B. apply (from_str_iff C HB) in A, B. rewrite A in B. apply Ok_inj in B. exact B. Qed.

(** and any other text is an error. *)
Theorem C81_rejected : forall C s, payloads_ok C -> (forall i, ~ reads C s i) -> exists e, invoice_from_str C s = Err e.
Proof.
  intros C s HB N. destruct (invoice_from_str C s) as [i|e|] eqn:E; [|eauto|].
  - destruct (N i). apply (from_str_iff C HB), E.
  - destruct (invoice_parse_no_panic C s E).
Qed.

(** Further segments of the path and the fragment say nothing. *)
Theorem C81_segments_ignored : forall C s i m, payloads_ok C ->
  invoice_from_str C s = Ok i -> ~ In "?"%char s -> ~ In "#"%char s -> escaped path_letters m ->
  invoice_from_str C (s ++ lit "/" ++ m) = Ok i.
Proof.
  intros C s i m HB E Nq Nf Em. apply (from_str_iff C HB) in E as [(a & b & c & more & query & frag & ps & Es & Na & Hs & Hm & Hq & R) Hi Hn].
  apply (from_str_iff C HB). constructor; [|exact Hi|exact Hn].
  assert (query = None).
  { destruct query as [q|]; [|reflexivity]. destruct Nq. rewrite Es. rewrite !in_app_iff. cbn. tauto. }
  assert (frag = None).
  { destruct frag as [q|]; [|reflexivity]. destruct Nf. rewrite Es. rewrite !in_app_iff. cbn. tauto. }
  subst query frag. exists a, b, c, (more ++ lit "/" ++ m), None, None, ps. split.
  { rewrite Es, !app_nil_r. cbn [lit list_ascii_of_string app]. rewrite <- ?app_assoc. cbn [app]. rewrite <- ?app_assoc. cbn [app]. rewrite <- ?app_assoc. reflexivity. }
  split; [exact Na|]. split; [exact Hs|]. split; [|split; [exact Hq|exact R]].
  right. destruct Hm as [->|(m' & -> & Em')]; [exists m; auto|]. exists (m' ++ lit "/" ++ m). split; [rewrite <- app_assoc; reflexivity|].
  apply escaped_app; [exact Em'|]. apply escaped_app; [|exact Em]. apply escaped_lit. intros x [<-|[]]. apply path_ok. reflexivity.
Qed.
Theorem C81_fragment_ignored : forall C s i f, payloads_ok C ->
  invoice_from_str C s = Ok i -> ~ In "#"%char s -> escaped query_letters f ->
  invoice_from_str C (s ++ lit "#" ++ f) = Ok i.
Proof.
  intros C s i f HB E Nf Ef. apply (from_str_iff C HB) in E as [(a & b & c & more & query & frag & ps & Es & Na & Hs & Hm & Hq & R) Hi Hn].
  apply (from_str_iff C HB). constructor; [|exact Hi|exact Hn].
  assert (frag = None).
  { destruct frag as [q|]; [|reflexivity]. destruct Nf. rewrite Es. rewrite !in_app_iff. cbn. tauto. }
  subst frag. exists a, b, c, more, query, (Some f), ps. split.
  { rewrite Es, !app_nil_r, <- !app_assoc. reflexivity. }
  split; [exact Na|]. split; [exact Hs|]. split; [exact Hm|]. split; [|exact R].
  intros t [X|X]; [auto|]. injection X as <-. exact Ef.
Qed.

(** *** An invoice with each kind of parameters *)
Definition rd_sample : Codecs := {|
  cid_body := cid_body sample; cid_parse := cid_parse sample; seal_print := seal_print sample; seal_parse := seal_parse sample;
  attach_print := attach_print sample; attach_parse := attach_parse sample; baid_print := baid_print sample;
  baid_parse := fun t => match baid_parse sample t with Some l => if (len l =? 34) && forallb (fun b => b <? 256) l then Some l else None | None => None end;
  typename_ok := typename_ok sample; tapkey_ok := tapkey_ok sample; utf8 := utf8 sample |}.
Definition rd_text : str := lit "rgb:c-5/RGB20/1@7+bc:s-1/more%2Fand?memo=a%20b&endpoints=rpc://x&x=&expiry=+7&memo=c&endpoints=storm://_/,wss://h#end".

Example C81_example :
  payloads_ok rd_sample /\
  (exists i, reads rd_sample rd_text i /\ contract i = Some 5 /\ owned_state i = ISData {| al_index := 7; al_fraction := 1 |} /\
     transports i = [Storm; WebSockets true (lit "h")] /\ expiry i = Some 7%Z /\ unknown_query i = [(lit "memo", lit "c"); (lit "x", [])]) /\
  (forall i, ~ reads rd_sample (lit "rgb:c-5/~/bc:s-1") i) /\
  (forall i, ~ reads rd_sample (lit "rgb:~/~/bc:s-1?memo=100%") i).
Proof.
  assert (HB : payloads_ok rd_sample).
  { intros t l. cbn [rd_sample baid_parse]. destruct (baid_parse sample t) as [l'|]; [|discriminate].
    destruct ((len l' =? 34) && forallb (fun b => b <? 256) l') eqn:E; [|discriminate]. intros X. injection X as <-.
    apply Bool.andb_true_iff in E as (E1 & E2). split; [apply N.eqb_eq, E1|]. apply Forall_forall. intros b Hb.
    rewrite forallb_forall in E2. apply N.ltb_lt, E2, Hb. }
  split; [exact HB|]. split.
  { eexists. split; [apply (C81_reads _ _ _ HB); vm_compute; reflexivity|]. repeat split. }
  split; intros i R; apply (C81_reads _ _ _ HB) in R; vm_compute in R; discriminate.
Qed.

Print Assumptions C81_reads.
Print Assumptions C81_one.
Print Assumptions C81_rejected.
Print Assumptions C81_segments_ignored.
Print Assumptions C81_fragment_ignored.
