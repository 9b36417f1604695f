(** * Encodings of the parts of a stock

    A self-delimiting encoding for each of the three files, to show that encodings as
    asked for by [codecs_ok] exist.  It is not the encoding of the crate strict_encoding,
    but of the same kind: collections are preceded by their length, variants by a tag. *)
From Verif Require Import Base Core Ser ContainerModel SupplModel PIndexModel StateModel StashModel StockModel StockSpec.

(** ** The stash *)
#[export] Instance SerTx : Ser Tx.
Proof.
  via (fun a : Tx => (tx_txid a, tx_body a)) (fun t : N * N => Some {| tx_txid := fst t; tx_body := snd t |}).
Defined.
#[export] Instance SerPub : Ser PubWitness.
Proof.
  via (fun a : PubWitness => match a with PwTxid t => (Some t, None) | PwTx t => (None, Some t) end)
      (fun t : option N * option Tx => match t with
         | (Some t, _) => Some (PwTxid t) | (None, Some t) => Some (PwTx t) | _ => None end).
Defined.
#[export] Instance SerXPub : Ser XPubWitness.
Proof.
  via (fun a : XPubWitness => (xw_layer a, xw_pub a))
      (fun t : Layer1 * PubWitness => Some {| xw_layer := fst t; xw_pub := snd t |}).
Defined.
#[export] Instance SerAnchor : Ser Anchor.
Proof.
  via (fun a : Anchor => (an_root a, (an_known a, an_dbc a)))
      (fun t : N * (omap N N * N) => let '(a, (b, c)) := t in
         Some {| an_root := a; an_known := b; an_dbc := c |}).
Defined.
#[export] Instance SerAnchorSet : Ser AnchorSet.
Proof.
  via (fun a : AnchorSet => match a with
         | ASTapret t => (Some t, None) | ASOpret o => (None, Some o) | ASDouble t o => (Some t, Some o) end)
      (fun t : option Anchor * option Anchor => match t with
         | (Some t, None) => Some (ASTapret t) | (None, Some o) => Some (ASOpret o)
         | (Some t, Some o) => Some (ASDouble t o) | _ => None end).
Defined.
#[export] Instance SerSealWitness : Ser SealWitness.
Proof.
  via (fun a : SealWitness => (sw_public a, sw_anchors a))
      (fun t : XPubWitness * AnchorSet => Some {| sw_public := fst t; sw_anchors := snd t |}).
Defined.
#[export] Instance SerSchema : Ser SchemaRec.
Proof.
  via (fun a : SchemaRec => (sch_id a, (sch_globals a, (sch_libs a, sch_types a))))
      (fun t : N * (omap N N * (list N * list N)) => let '(a, (b, (c, d))) := t in
         Some {| sch_id := a; sch_globals := b; sch_libs := c; sch_types := d |}).
Defined.
#[export] Instance SerIface : Ser IfaceRec.
Proof.
  via (fun a : IfaceRec => (if_id a, (if_name a, (if_inherits a, if_types a))))
      (fun t : N * (N * (list N * list N)) => let '(a, (b, (c, d))) := t in
         Some {| if_id := a; if_name := b; if_inherits := c; if_types := d |}).
Defined.
#[export] Instance SerImpl : Ser ImplRec.
Proof.
  via (fun a : ImplRec => (im_id a, (im_schema a, im_iface a)))
      (fun t : N * (N * N) => let '(a, (b, c)) := t in
         Some {| im_id := a; im_schema := b; im_iface := c |}).
Defined.
#[export] Instance SerSchemaIfaces : Ser SchemaIfaces.
Proof.
  via (fun a : SchemaIfaces => (si_schema a, si_impls a))
      (fun t : SchemaRec * omap N ImplRec => Some {| si_schema := fst t; si_impls := snd t |}).
Defined.
#[export] Instance SerTag : Ser ContentTag.
Proof.
  via (fun a : ContentTag => match a with
         | TagSchema => 0 | TagGenesis => 1 | TagIface => 2 | TagIfaceImpl => 3 | TagSuppl => 4 end%N)
      (fun n => match n with 0 => Some TagSchema | 1 => Some TagGenesis | 2 => Some TagIface
                | 3 => Some TagIfaceImpl | _ => Some TagSuppl end%N).
Defined.
#[export] Instance SerContentId : Ser ContentId := SerProd.
#[export] Instance SerSuppl : Ser SupplRec.
Proof.
  via (fun a : SupplRec => (su_content a, su_data a))
      (fun t : ContentId * N => Some {| su_content := fst t; su_data := snd t |}).
Defined.
#[export] Instance SerTrust : Ser TrustLevel.
Proof.
  via (fun a : TrustLevel => match a with
         | Malicious => 0 | Unknown => 1 | Untrusted => 2 | Trusted => 3 | Ultimate => 4 end%N)
      (fun n => match n with 0 => Some Malicious | 1 => Some Unknown | 2 => Some Untrusted
                | 3 => Some Trusted | _ => Some Ultimate end%N).
Defined.
#[export] Instance SerStash : Ser MemStash.
Proof.
  via (fun s : MemStash => (st_schemata s, (st_ifaces s, (st_geneses s, (st_suppl s, (st_bundles s,
         (st_extensions s, (st_witnesses s, (st_attachments s, (st_seals s, (st_types s,
         (st_identities s, (st_libs s, st_sigs s)))))))))))))
      (fun t : omap N SchemaIfaces * (omap N IfaceRec * (omap N Operation * (omap ContentId (oset SupplRec) *
               (omap N Bundle * (omap N Operation * (omap WitnessId SealWitness * (omap N N * (oset Seal *
               (omap N N * (omap N TrustLevel * (omap N N * omap ContentId (omap N N)))))))))))) =>
         let '(a, (b, (c, (d, (e, (f, (g, (h, (i, (j, (k, (l, m)))))))))))) := t in
         Some {| st_schemata := a; st_ifaces := b; st_geneses := c; st_suppl := d; st_bundles := e;
                 st_extensions := f; st_witnesses := g; st_attachments := h; st_seals := i; st_types := j;
                 st_identities := k; st_libs := l; st_sigs := m |}).
Defined.

(** ** The state *)
#[export] Instance SerOrd : Ser WitnessOrd.
Proof.
  via (fun a : WitnessOrd => match a with Mined h t => (0, (h, t)) | Tentative => (1, (0, 0)) | Archived => (2, (0, 0)) end%N)
      (fun t : N * (N * N) => let '(k, (h, x)) := t in
         match k with 0 => Some (Mined h x) | 1 => Some Tentative | _ => Some Archived end%N).
Defined.
#[export] Instance SerOpWitness : Ser OpWitness.
Proof.
  via (fun a : OpWitness => match a with
         | OWGenesis => (0, None) | OWTransition w t => (1, Some (w, t)) | OWExtension w t => (2, Some (w, t)) end%N)
      (fun t : N * option (WitnessId * N) => match t with
         | (0, _) => Some OWGenesis | (1, Some (w, t)) => Some (OWTransition w t)
         | (_, Some (w, t)) => Some (OWExtension w t) | _ => None end%N).
Defined.
#[export] Instance SerGlobalOut : Ser GlobalOut.
Proof.
  via (fun a : GlobalOut => (go_op a, (go_nonce a, (go_index a, go_witness a))))
      (fun t : N * (N * (N * OpWitness)) => let '(a, (b, (c, d))) := t in
         Some {| go_op := a; go_nonce := b; go_index := c; go_witness := d |}).
Defined.
#[export] Instance SerGlobal : Ser MemGlobal.
Proof.
  via (fun a : MemGlobal => (mg_known a, mg_limit a))
      (fun t : omap GlobalOut N * N => Some {| mg_known := fst t; mg_limit := snd t |}).
Defined.
#[export] Instance SerOutputs : Ser Outputs := @SerMap (Opout * OutSeal) (RState * option WitnessId) _ _.
#[export] Instance SerContractState : Ser ContractState.
Proof.
  via (fun s : ContractState => (cs_schema s, (cs_contract s, (cs_global s, (cs_rights s, (cs_fungibles s,
         (cs_data s, cs_attach s)))))))
      (fun t : N * (N * (omap N MemGlobal * (Outputs * (Outputs * (Outputs * Outputs))))) =>
         let '(a, (b, (c, (d, (e, (f, g)))))) := t in
         Some (Build_ContractState a b c d e f g)).
Defined.
#[export] Instance SerState : Ser MemState.
Proof.
  via (fun s : MemState => (ms_witnesses s, ms_contracts s))
      (fun t : omap WitnessId WitnessOrd * omap N ContractState =>
         Some {| ms_witnesses := fst t; ms_contracts := snd t |}).
Defined.

(** ** The index *)
#[export] Instance SerContractIndex : Ser ContractIndex.
Proof.
  via (fun s : ContractIndex => (ci_public s, ci_outs s))
      (fun t : oset Opout * omap OutSeal (oset Opout) => Some {| ci_public := fst t; ci_outs := snd t |}).
Defined.
#[export] Instance SerIndex : Ser MemIndex.
Proof.
  via (fun s : MemIndex => (mi_op_bundle s, (mi_bundle_contract s, (mi_bundle_witness s, (mi_contracts s, mi_terminals s)))))
      (fun t : omap N N * (omap N N * (omap N (oset WitnessId) * (omap N ContractIndex * omap N (oset Opout)))) =>
         let '(a, (b, (c, (d, e)))) := t in
         Some {| mi_op_bundle := a; mi_bundle_contract := b; mi_bundle_witness := c; mi_contracts := d;
                 mi_terminals := e |}).
Defined.

(** ** Codecs *)

(** Bytes after the value are ignored, as by [strict_deserialize_from_file]. *)
Definition codec_of (A : Type) `{Ser A} : Codec A :=
  {| enc := ser; dec := fun l => option_map fst (par l) |}.

Lemma codec_of_ok (A : Type) `{Ser A} : codec_ok (codec_of A).
Proof.
  split; simpl.
  - intros x. rewrite <- (app_nil_r (ser x)), par_ser. reflexivity.
  - intros x n Hn. destruct (par (firstn n (ser x))) as [[y r]|] eqn:E; [|reflexivity]. exfalso.
    apply (par_more _ _ _ (skipn n (ser x))) in E. rewrite firstn_skipn in E.
    rewrite <- (app_nil_r (ser x)), par_ser in E. injection E as _ E.
    symmetry in E. apply app_eq_nil in E as [_ E]. rewrite app_nil_r in E.
    apply (f_equal (@length N)) in E. rewrite skipn_length in E. simpl in E. lia.
Qed.

Definition std_codecs : Codecs :=
  {| co_stash := codec_of MemStash; co_state := codec_of MemState; co_index := codec_of MemIndex |}.

Theorem std_codecs_ok : codecs_ok std_codecs.
Proof. split; [|split]; apply codec_of_ok. Qed.
