(** * Witnesses, anchors, bundles under witnesses, consignments, batches

    Models src/containers/anchors.rs, indexed.rs, partials.rs and the parts of
    consignment.rs which do not call the validator of rgb-core. *)
From Verif Require Import Base.
From Verif Require Export Core MergeModel.
Local Open Scope N_scope.

(** ** Public witnesses, anchors.rs 62-168 *)

(** A bitcoin transaction: its id and the rest of its data *)
Record Tx := { tx_txid : N; tx_body : N }.

(** anchors.rs 115-121 ([PubWitness]) *)
Inductive PubWitness := PwTxid (txid : N) | PwTx (tx : Tx).

(** anchors.rs 140-145 ([PubWitness::txid]) *)
Definition pw_txid (p : PubWitness) : N :=
  match p with PwTxid t => t | PwTx tx => tx_txid tx end.

(** anchors.rs 147-152 ([PubWitness::tx]) *)
Definition pw_tx (p : PubWitness) : option Tx :=
  match p with PwTxid _ => None | PwTx tx => Some tx end.

(** contract/merge_reveal.rs 33-60 ([MergeRevealError]), the variants used here *)
Inductive WitnessMergeError :=
| TxidMismatch (a b : N)
| ChainMismatch (bitcoin liquid : N).

(** anchors.rs 154-167 ([PubWitness::merge_reveal]); the second arm lists the same
    pattern twice, so a full transaction followed by a bare id reaches the last arm. *)
Definition merge_pub (a b : PubWitness) : result WitnessMergeError PubWitness :=
  match a, b with
  | PwTxid t1, PwTxid t2 => if t1 =? t2 then Ok (PwTxid t1) else Err (TxidMismatch t1 t2)
  | PwTxid t, PwTx tx => if t =? tx_txid tx then Ok (PwTx tx) else Err (TxidMismatch t (tx_txid tx))
  | PwTx t1, PwTx t2 =>
      if tx_txid t1 =? tx_txid t2 then Ok (PwTx t1) else Err (TxidMismatch (tx_txid t1) (tx_txid t2))
  | PwTx tx, PwTxid t => Err (TxidMismatch (tx_txid tx) t)
  end.

(** anchors.rs 78 ([XPubWitness = XChain<PubWitness>]) *)
Record XPubWitness := { xw_layer : Layer1; xw_pub : PubWitness }.

(** anchors.rs 84-86 ([ToWitnessId for XPubWitness]) *)
Definition witness_id (w : XPubWitness) : WitnessId :=
  {| w_layer := xw_layer w; w_txid := pw_txid (xw_pub w) |}.

(** anchors.rs 88-105 ([MergeReveal for XPubWitness]) *)
Definition merge_xpub (a b : XPubWitness) : result WitnessMergeError XPubWitness :=
  match xw_layer a, xw_layer b with
  | Bitcoin, Bitcoin =>
      rmap (fun p => {| xw_layer := Bitcoin; xw_pub := p |}) (merge_pub (xw_pub a) (xw_pub b))
  | Liquid, Liquid =>
      rmap (fun p => {| xw_layer := Liquid; xw_pub := p |}) (merge_pub (xw_pub a) (xw_pub b))
  | Bitcoin, Liquid => Err (ChainMismatch (pw_txid (xw_pub a)) (pw_txid (xw_pub b)))
  | Liquid, Bitcoin => Err (ChainMismatch (pw_txid (xw_pub b)) (pw_txid (xw_pub a)))
  end.

(** ** Anchor sets, anchors.rs 432-505 *)

(** [Anchor<mpc::MerkleBlock, D>] of bp-dbc: the root of the multi-protocol
    commitment, the messages known per protocol ([to_known_message_map]) and the
    deterministic bitcoin commitment proof. *)
Record Anchor := { an_root : N; an_known : omap N N; an_dbc : N }.

Inductive AnchorError := DbcMismatch | UnrelatedProof.

(** Entries of [m] which [k] lacks are added to [k] *)
Definition known_union (k m : omap N N) : omap N N :=
  fold_left (fun acc p => if mhas (fst p) acc then acc else minsert (fst p) (snd p) acc) m k.

(** [Anchor::merge_reveal] of bp-dbc: proofs and commitments must be equal, then the
    known messages are joined. *)
Definition merge_anchor (a b : Anchor) : result AnchorError Anchor :=
  if negb (an_dbc a =? an_dbc b) then Err DbcMismatch
  else if negb (an_root a =? an_root b) then Err UnrelatedProof
  else Ok {| an_root := an_root a; an_known := known_union (an_known a) (an_known b);
             an_dbc := an_dbc a |}.

(** anchors.rs 440-450 ([AnchorSet]) *)
Inductive AnchorSet :=
| ASTapret (tapret : Anchor)
| ASOpret (opret : Anchor)
| ASDouble (tapret opret : Anchor).

(** anchors.rs 457-469 ([AnchorSet::known_bundle_ids]); [BTreeMap::extend] overwrites *)
Definition known_bundle_ids (s : AnchorSet) : list N :=
  mvals match s with
        | ASTapret t => an_known t
        | ASOpret o => an_known o
        | ASDouble t o => fold_left (fun m p => minsert (fst p) (snd p) m) (an_known o) (an_known t)
        end.

(** anchors.rs 471 ([AnchorSet::has_tapret]) *)
Definition has_tapret (s : AnchorSet) : bool :=
  match s with ASTapret _ | ASDouble _ _ => true | _ => false end.
(** anchors.rs 473 ([AnchorSet::has_opret]) *)
Definition has_opret (s : AnchorSet) : bool :=
  match s with ASOpret _ | ASDouble _ _ => true | _ => false end.

(** anchors.rs 475-504 ([AnchorSet::merge_reveal]) *)
Definition merge_anchors (a b : AnchorSet) : result AnchorError AnchorSet :=
  match a, b with
  | ASTapret x, ASTapret y => rmap ASTapret (merge_anchor x y)
  | ASOpret x, ASOpret y => rmap ASOpret (merge_anchor x y)
  | ASTapret t, ASOpret o | ASOpret o, ASTapret t => Ok (ASDouble t o)
  | ASDouble t o, ASTapret x | ASTapret x, ASDouble t o =>
      let! t' := merge_anchor t x in Ok (ASDouble t' o)
  | ASDouble t o, ASOpret x | ASOpret x, ASDouble t o =>
      let! o' := merge_anchor o x in Ok (ASDouble t o')
  | ASDouble t o, ASDouble t' o' =>
      let! t'' := merge_anchor t t' in
      let! o'' := merge_anchor o o' in Ok (ASDouble t'' o'')
  end.

(** ** Bundles under a witness, anchors.rs 170-430 *)

(** [DbcProof]: its closing method is the variant *)
Record DbcProof := { dp_method : CloseMethod; dp_data : N }.

(** anchors.rs 285-289 ([ClientBundle]); the Merkle proof is opaque *)
Record ClientBundle := { cb_mpc : N; cb_dbc : DbcProof; cb_bundle : Bundle }.

(** anchors.rs 295-302 ([ClientBundle::new]): panics if the methods differ *)
Definition client_bundle_new {E} (mpc : N) (dbc : DbcProof) (b : Bundle) : result E ClientBundle :=
  if keqb (dp_method dbc) (b_method b)
  then Ok {| cb_mpc := mpc; cb_dbc := dbc; cb_bundle := b |} else Panic.

(** anchors.rs 307-323 ([ClientBundle::reveal_transition]) *)
Inductive RevealError := UnrelatedTransition (opid : N).
Definition reveal_transition (H : Hashes) (c : ClientBundle) (t : Operation)
  : result RevealError (bool * ClientBundle) :=
  let opid := op_id H t in
  if forallb (fun id => negb (id =? opid)) (mvals (b_inputs (cb_bundle c)))
  then Err (UnrelatedTransition opid)
  else if mhas opid (b_known (cb_bundle c)) then Ok (false, c)
  else
    let! known := expect (cinsert U16MAX opid t (b_known (cb_bundle c))) in
    Ok (true, {| cb_mpc := cb_mpc c; cb_dbc := cb_dbc c;
                 cb_bundle := {| b_method := b_method (cb_bundle c);
                                 b_inputs := b_inputs (cb_bundle c); b_known := known |} |}).

(** anchors.rs 334-344 ([AnchoredBundles]) *)
Inductive AnchoredBundles :=
| ABTapret (tapret : ClientBundle)
| ABOpret (opret : ClientBundle)
| ABDouble (tapret opret : ClientBundle).

(** anchors.rs 350-361 ([From<ClientBundle> for AnchoredBundles]) *)
Definition anchored_from {E} (c : ClientBundle) : result E AnchoredBundles :=
  match dp_method (cb_dbc c) with
  | OpretFirst => rmap ABOpret (client_bundle_new (cb_mpc c) (cb_dbc c) (cb_bundle c))
  | TapretFirst => rmap ABTapret (client_bundle_new (cb_mpc c) (cb_dbc c) (cb_bundle c))
  end.

(** partials.rs 270-273, 320-358 ([Dichotomy] and its iterator) *)
Record Dichotomy (A : Type) := { di_first : A; di_second : option A }.
Arguments di_first {A}. Arguments di_second {A}. Arguments Build_Dichotomy {A}.
Definition di_single {A} (a : A) : Dichotomy A := {| di_first := a; di_second := None |}.
Definition di_double {A} (a b : A) : Dichotomy A := {| di_first := a; di_second := Some b |}.
Definition di_iter {A} (d : Dichotomy A) : list A :=
  di_first d :: match di_second d with Some s => [s] | None => [] end.
(** partials.rs 310-318 ([FromIterator for Dichotomy]): two panics *)
Definition di_from_iter {E A} (l : list A) : result E (Dichotomy A) :=
  match l with
  | [] => Panic
  | [a] => Ok (di_single a)
  | [a; b] => Ok (di_double a b)
  | _ => Panic
  end.

(** anchors.rs 364-373, 375-384 ([AnchoredBundles::bundles], [into_bundles]) *)
Definition anchored_bundles (a : AnchoredBundles) : list Bundle :=
  di_iter match a with
          | ABTapret t => di_single (cb_bundle t)
          | ABOpret o => di_single (cb_bundle o)
          | ABDouble t o => di_double (cb_bundle t) (cb_bundle o)
          end.

(** [EAnchor]: Merkle proof and commitment proof *)
Record EAnchor := { ea_mpc : N; ea_dbc : DbcProof }.
Definition cb_anchor (c : ClientBundle) : EAnchor := {| ea_mpc := cb_mpc c; ea_dbc := cb_dbc c |}.

(** anchors.rs 386-405, 408-430 ([AnchoredBundles::iter], [into_iter]) *)
Definition anchored_iter (a : AnchoredBundles) : list (EAnchor * Bundle) :=
  di_iter match a with
          | ABTapret t => di_single (cb_anchor t, cb_bundle t)
          | ABOpret o => di_single (cb_anchor o, cb_bundle o)
          | ABDouble t o => di_double (cb_anchor t, cb_bundle t) (cb_anchor o, cb_bundle o)
          end.

(** anchors.rs 180-183 ([WitnessBundle]) *)
Record WitnessBundle := { wb_witness : XPubWitness; wb_bundles : AnchoredBundles }.

(** anchors.rs 234 ([WitnessBundle::witness_id]) *)
Definition wb_id (w : WitnessBundle) : WitnessId := witness_id (wb_witness w).

(** anchors.rs 199-204 ([WitnessBundle::with]) *)
Definition wb_with {E} (w : XPubWitness) (c : ClientBundle) : result E WitnessBundle :=
  let! a := anchored_from c in Ok {| wb_witness := w; wb_bundles := a |}.

(** anchors.rs 206-232 ([WitnessBundle::into_double]) *)
Inductive DoubleError := AlreadyDouble (w : WitnessId) | SameBundleType (w : WitnessId).
Definition into_double (w : WitnessBundle) (c : ClientBundle) : result DoubleError WitnessBundle :=
  match wb_bundles w, dp_method (cb_dbc c) with
  | ABDouble _ _, _ => Err (AlreadyDouble (wb_id w))
  | ABOpret o, TapretFirst =>
      let! t := client_bundle_new (cb_mpc c) (cb_dbc c) (cb_bundle c) in
      Ok {| wb_witness := wb_witness w; wb_bundles := ABDouble t o |}
  | ABTapret t, OpretFirst =>
      let! o := client_bundle_new (cb_mpc c) (cb_dbc c) (cb_bundle c) in
      Ok {| wb_witness := wb_witness w; wb_bundles := ABDouble t o |}
  | _, _ => Err (SameBundleType (wb_id w))
  end.

(** anchors.rs 253-257: revealing a seal in the transitions of a client bundle *)
Definition cb_reveal (H : Hashes) (seal : Seal) (c : ClientBundle) : ClientBundle :=
  {| cb_mpc := cb_mpc c; cb_dbc := cb_dbc c; cb_bundle := reveal_bundle H seal (cb_bundle c) |}.

(** anchors.rs 236-260 ([WitnessBundle::reveal_seal]) *)
Definition wb_reveal_seal (H : Hashes) (bid : N) (seal : Seal) (w : WitnessBundle)
  : bool * WitnessBundle :=
  let is_id c := bundle_id H (cb_bundle c) =? bid in
  let put a := (true, {| wb_witness := wb_witness w; wb_bundles := a |}) in
  match wb_bundles w with
  | ABTapret t => if is_id t then put (ABTapret (cb_reveal H seal t)) else (false, w)
  | ABOpret o => if is_id o then put (ABOpret (cb_reveal H seal o)) else (false, w)
  | ABDouble t o =>
      if is_id t then put (ABDouble (cb_reveal H seal t) o)
      else if is_id o then put (ABDouble t (cb_reveal H seal o)) else (false, w)
  end.

(** anchors.rs 267-271 ([WitnessBundle::known_transitions]) *)
Definition wb_known_transitions (w : WitnessBundle) : list Operation :=
  flat_map (fun b => mvals (b_known b)) (anchored_bundles (wb_bundles w)).

(** ** Consignments, consignment.rs *)

(** The parts of [Schema], [Iface] and [IfaceImpl] which containers and the stash
    use: ids, references between them, and of a schema the global state types with
    the number of items kept ([max_items]) and the libraries it calls. *)
Record SchemaRec := { sch_id : N; sch_globals : omap N N; sch_libs : list N; sch_types : list N }.
Record IfaceRec := { if_id : N; if_name : N; if_inherits : list N; if_types : list N }.
Record ImplRec := { im_id : N; im_schema : N; im_iface : N }.

(** suppl.rs 115-124 ([ContentRef]), util.rs 92-98 ([ContentId]) as a tag and an id *)
Inductive ContentTag := TagSchema | TagGenesis | TagIface | TagIfaceImpl | TagSuppl.
Definition tag_key (t : ContentTag) : N :=
  match t with TagSchema => 0 | TagGenesis => 1 | TagIface => 2 | TagIfaceImpl => 3 | TagSuppl => 4 end.
Lemma tag_key_inj a b : tag_key a = tag_key b -> a = b.
Proof. destruct a, b; (reflexivity || discriminate). Qed.
#[export] Instance OrdContentTag : OrdKey ContentTag := OrdVia tag_key tag_key_inj.
Definition ContentId : Type := ContentTag * N.
#[export] Instance OrdContentId : OrdKey ContentId := OrdProd.

(** A supplement: the content it is about and the rest of its data as a number
    standing for its identity (equal supplements have equal numbers) *)
Record SupplRec := { su_content : ContentId; su_data : N }.
Definition suppl_key (s : SupplRec) := (su_content s, su_data s).
Lemma suppl_key_inj a b : suppl_key a = suppl_key b -> a = b.
Proof. destruct a, b; cbv; intros [= -> ->]; reflexivity. Qed.
#[export] Instance OrdSupplRec : OrdKey SupplRec := OrdVia suppl_key suppl_key_inj.

(** consignment.rs 178-224 ([Consignment]); [c_bundles] and [c_extensions] are the
    elements of ordered sets, [c_ifaces] the entries of an ordered map.  Types and
    libraries are ids with opaque content. *)
Record Consignment := {
  c_transfer : bool;
  c_terminals : omap N N;
  c_genesis : Operation;
  c_extensions : list Operation;
  c_bundles : list WitnessBundle;
  c_schema : SchemaRec;
  c_ifaces : list (IfaceRec * ImplRec);
  c_supplements : list SupplRec;
  c_types : omap N N;
  c_scripts : omap N N;
  c_attachments : omap N N;
  c_signatures : omap ContentId (omap N N)
}.

Definition set_bundles (c : Consignment) (b : list WitnessBundle) : Consignment :=
  {| c_transfer := c_transfer c; c_terminals := c_terminals c; c_genesis := c_genesis c;
     c_extensions := c_extensions c; c_bundles := b; c_schema := c_schema c;
     c_ifaces := c_ifaces c; c_supplements := c_supplements c; c_types := c_types c;
     c_scripts := c_scripts c; c_attachments := c_attachments c;
     c_signatures := c_signatures c |}.

(** consignment.rs 289-305 ([Consignment::reveal_terminal_seals]).  The witness
    bundles are re-inserted into a fresh set ordered by witness id; as the witness
    is not changed, this keeps them all and in order. *)
Definition reveal_terminal_seals {E} (H : Hashes) (f : N -> result E (option Seal)) (c : Consignment)
  : result E Consignment :=
  let! bs :=
    rfold (fun acc wb =>
             let! wb' :=
               rfold (fun wb p =>
                        let! s := f (snd p) in
                        match s with
                        | Some seal => Ok (snd (wb_reveal_seal H (fst p) seal wb))
                        | None => Ok wb
                        end) wb (c_terminals c) in
             Ok (acc ++ [wb'])) [] (c_bundles c) in
  Ok (set_bundles c bs).

(** consignment.rs 307-323 ([Consignment::into_contract]) *)
Definition into_contract (c : Consignment) : Consignment :=
  {| c_transfer := false; c_terminals := c_terminals c; c_genesis := c_genesis c;
     c_extensions := c_extensions c; c_bundles := c_bundles c; c_schema := c_schema c;
     c_ifaces := c_ifaces c; c_supplements := c_supplements c; c_types := c_types c;
     c_scripts := c_scripts c; c_attachments := c_attachments c;
     c_signatures := c_signatures c |}.

(** ** The consignment index, indexed.rs *)

(** indexed.rs 36-45 ([IndexedConsignment]), without the script table *)
Record Index := {
  ix_anchor : omap N (WitnessId * EAnchor);
  ix_bundle : omap N Bundle;
  ix_op_witness : omap N WitnessId;
  ix_op_bundle : omap N N;
  ix_extension : omap N Operation;
  ix_witness : omap WitnessId XPubWitness
}.

Definition index_empty : Index :=
  {| ix_anchor := []; ix_bundle := []; ix_op_witness := []; ix_op_bundle := [];
     ix_extension := []; ix_witness := [] |}.

(** indexed.rs 69-72 *)
Definition index_op (w : WitnessId) (bid : N) (ix : Index) (opid : N) : Index :=
  {| ix_anchor := ix_anchor ix; ix_bundle := ix_bundle ix;
     ix_op_witness := minsert opid w (ix_op_witness ix);
     ix_op_bundle := minsert opid bid (ix_op_bundle ix);
     ix_extension := ix_extension ix; ix_witness := ix_witness ix |}.

(** indexed.rs 65-73 *)
Definition index_anchored (H : Hashes) (w : WitnessId) (ix : Index) (p : EAnchor * Bundle) : Index :=
  let bid := bundle_id H (snd p) in
  fold_left (index_op w bid) (mkeys (b_known (snd p)))
    {| ix_anchor := minsert bid (w, fst p) (ix_anchor ix);
       ix_bundle := minsert bid (snd p) (ix_bundle ix);
       ix_op_witness := ix_op_witness ix; ix_op_bundle := ix_op_bundle ix;
       ix_extension := ix_extension ix; ix_witness := ix_witness ix |}.

(** indexed.rs 61-74 *)
Definition index_witness (H : Hashes) (ix : Index) (wb : WitnessBundle) : Index :=
  fold_left (index_anchored H (wb_id wb)) (anchored_iter (wb_bundles wb))
    {| ix_anchor := ix_anchor ix; ix_bundle := ix_bundle ix;
       ix_op_witness := ix_op_witness ix; ix_op_bundle := ix_op_bundle ix;
       ix_extension := ix_extension ix;
       ix_witness := minsert (wb_id wb) (wb_witness wb) (ix_witness ix) |}.

(** indexed.rs 75-77 *)
Definition index_extension (H : Hashes) (ix : Index) (e : Operation) : Index :=
  {| ix_anchor := ix_anchor ix; ix_bundle := ix_bundle ix;
     ix_op_witness := ix_op_witness ix; ix_op_bundle := ix_op_bundle ix;
     ix_extension := minsert (op_id H e) e (ix_extension ix); ix_witness := ix_witness ix |}.

(** indexed.rs 54-94 ([IndexedConsignment::new]) *)
Definition index_new (H : Hashes) (c : Consignment) : Index :=
  fold_left (index_extension H) (c_extensions c)
    (fold_left (index_witness H) (c_bundles c) index_empty).

(** indexed.rs 98-103 ([IndexedConsignment::transition]) *)
Definition index_transition (ix : Index) (opid : N) : option Operation :=
  match mget opid (ix_op_bundle ix) with
  | Some bid => match mget bid (ix_bundle ix) with
                | Some b => mget opid (b_known b)
                | None => None
                end
  | None => None
  end.

(** indexed.rs 117-124 ([operation]) *)
Definition index_operation (H : Hashes) (c : Consignment) (opid : N) : option Operation :=
  let ix := index_new H c in
  if opid =? op_id H (c_genesis c) then Some (c_genesis c)
  else match index_transition ix opid with
       | Some t => Some t
       | None => mget opid (ix_extension ix)
       end.

(** indexed.rs 128-134 ([bundle_ids]), 136-138 ([bundle]), 140-142 ([anchor]),
    144-146 ([op_witness_id]), 105-107 ([pub_witness]) *)
Definition index_bundle_ids (H : Hashes) (c : Consignment) : list N :=
  sfrom (mkeys (ix_bundle (index_new H c))).
Definition index_bundle (H : Hashes) (c : Consignment) (bid : N) : option Bundle :=
  mget bid (ix_bundle (index_new H c)).
Definition index_anchor (H : Hashes) (c : Consignment) (bid : N) : option (WitnessId * EAnchor) :=
  mget bid (ix_anchor (index_new H c)).
Definition index_op_witness_id (H : Hashes) (c : Consignment) (opid : N) : option WitnessId :=
  mget opid (ix_op_witness (index_new H c)).
Definition index_pub_witness (H : Hashes) (c : Consignment) (w : WitnessId) : option XPubWitness :=
  mget w (ix_witness (index_new H c)).

(** ** Batches, partials.rs *)

(** partials.rs 51-56 ([CloseMethodSet]) *)
Inductive MethodSet := MTapret | MOpret | MBoth.
Definition methodset_eqb (a b : MethodSet) : bool :=
  match a, b with
  | MTapret, MTapret | MOpret, MOpret | MBoth, MBoth => true
  | _, _ => false
  end.
(** partials.rs 109-116 ([From<CloseMethod>]) *)
Definition methodset_of (m : CloseMethod) : MethodSet :=
  match m with OpretFirst => MOpret | TapretFirst => MTapret end.
(** partials.rs 90-99 ([BitOr<T>]) *)
Definition methodset_or (a b : MethodSet) : MethodSet := if methodset_eqb a b then a else MBoth.
(** partials.rs 119-120 *)
Definition has_tapret_first (s : MethodSet) : bool :=
  match s with MTapret | MBoth => true | MOpret => false end.
Definition has_opret_first (s : MethodSet) : bool :=
  match s with MOpret | MBoth => true | MTapret => false end.

(** partials.rs 131-136 ([TransitionInfo]) *)
Record TransitionInfo := {
  ti_id : N;
  ti_inputs : oset Outpoint;
  ti_transition : Operation;
  ti_method : CloseMethod
}.

Inductive TransitionInfoError := TiTooMany (opid : N) | TiMethodDivergence (opid : N).

(** partials.rs 162-183 ([TransitionInfo::new]) *)
Definition transition_info_new (H : Hashes) (t : Operation) (seals : list OutSeal)
  : result TransitionInfoError TransitionInfo :=
  match seals with
  | [] => Panic
  | s :: _ =>
      let inputs := sfrom (map os_outpoint seals) in
      if U24MAX <? len inputs then Err (TiTooMany (op_id H t))
      else if existsb (fun x => negb (keqb (os_method x) (os_method s))) seals
      then Err (TiMethodDivergence (op_id H t))
      else Ok {| ti_id := op_id H t; ti_inputs := inputs; ti_transition := t;
                 ti_method := os_method s |}
  end.

(** partials.rs 209-212 ([Batch]) *)
Record Batch := { ba_main : Dichotomy TransitionInfo; ba_blanks : list (Dichotomy TransitionInfo) }.

(** partials.rs 225-229 ([IntoIterator for Batch]) *)
Definition batch_iter (b : Batch) : list TransitionInfo :=
  flat_map di_iter (ba_blanks b ++ [ba_main b]).

(** partials.rs 233-244 ([Batch::close_method_set]) *)
Definition close_method_set (b : Batch) : MethodSet :=
  let add ms m := methodset_or ms (methodset_of m) in
  let ms := methodset_of (ti_method (di_first (ba_main b))) in
  let ms := match di_second (ba_main b) with Some i => add ms (ti_method i) | None => ms end in
  let ms := fold_left (fun ms d => add ms (ti_method (di_first d))) (ba_blanks b) ms in
  fold_left (fun ms i => add ms (ti_method i)) (filter_map di_second (ba_blanks b)) ms.

Definition set_info_nonce (p : N) (i : TransitionInfo) : TransitionInfo :=
  {| ti_id := ti_id i; ti_inputs := ti_inputs i;
     ti_transition := set_nonce (ti_transition i) p; ti_method := ti_method i |}.
Definition set_pair_nonce (p : N) (d : Dichotomy TransitionInfo) : Dichotomy TransitionInfo :=
  {| di_first := set_info_nonce p (di_first d); di_second := option_map (set_info_nonce p) (di_second d) |}.

(** partials.rs 246-257 ([Batch::set_priority]): the nonce is assigned, the recorded
    id is not. *)
Definition set_priority (p : N) (b : Batch) : Batch :=
  {| ba_main := set_pair_nonce p (ba_main b); ba_blanks := map (set_pair_nonce p) (ba_blanks b) |}.

(** partials.rs 372-376 ([Fascia]) *)
Record Fascia := { fa_witness : XPubWitness; fa_anchor : AnchorSet;
                   fa_bundles : omap N (Dichotomy Bundle) }.
(** partials.rs 391 ([Fascia::witness_id]) *)
Definition fascia_witness_id (f : Fascia) : WitnessId := witness_id (fa_witness f).
(** partials.rs 393-397 ([Fascia::into_bundles]) *)
Definition fascia_bundles (f : Fascia) : list (N * Bundle) :=
  flat_map (fun p => map (fun b => (fst p, b)) (di_iter (snd p))) (fa_bundles f).
