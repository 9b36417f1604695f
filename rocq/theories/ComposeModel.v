(** * Composing payments: src/persistence/stock.rs, with the builders made by
    src/persistence/stash.rs *)
From Coq Require Import Ascii String.
From Verif Require Import Base StM Str Core AmountModel InvoiceModel SupplModel ContainerModel PIndexModel StateModel StashModel StockModel
  ConsignModel IfaceModel BuilderModel.
Local Open Scope list_scope.
Local Open Scope N_scope.

(** ** What is taken from elsewhere *)

(** The contents of the records a stash keeps (schemata, interfaces, implementations and
    supplements are records with their id in StashModel.v), the asset tags of a genesis (a part
    of [op_head]), the reading of types, and the numbers which stand for names, secret seals on
    their chain and serialized allocations. *)
Record Defs := {
  df_schema : SchemaRec -> FullSchema; df_iface : IfaceRec -> FullIface; df_impl : ImplRec -> FullImpl;
  df_suppl : SupplRec -> Supplement; df_velocity : blob -> option VelocityHint;
  df_tags : Operation -> omap N N;
  df_fits : omap N N -> N -> N -> bool;
  df_layer : N -> Layer1; df_secret : Layer1 -> N -> N;
  df_name : str -> N; df_alloc : Allocation -> N
}.

(** The functions which are given to [compose_deterministic] choose an output, a blinding of an
    amount and a blinding of a seal, each for a contract and a type.  [compose] draws the
    blindings at random (stock.rs 922-923), so that each call may give another one: the first
    argument says which call it is. *)
Inductive Use :=
| UBeneficiary                           (* the seal of the beneficiary *)
| UPayment | UChange | USalt
| UMain (seal : OutSeal) (o : Opout)     (* an input of the contract *)
| UBlank (seal : OutSeal) (o : Opout).   (* an input of another contract *)
Record Choices := {
  ch_alloc : Use -> N -> N -> VelocityHint -> option N;
  ch_blind : Use -> N -> N -> N;
  ch_seal : Use -> N -> N -> N
}.

(** stock.rs: [ContractAssignments] *)
Definition Spending := omap OutSeal (omap Opout RState).
(** The orders in which hash maps list their entries, and hash sets of rights their seals *)
Record Orders := {
  or_outs : N -> Spending -> list (OutSeal * omap Opout RState);
  or_assigns : N -> OutSeal -> omap Opout RState -> list (Opout * RState);
  or_contracts : list (N * Spending) -> list (N * Spending);
  or_rights : list BSeal -> list BSeal
}.

(** stock.rs 212-258 ([ComposeError]) and the errors of the parts *)
Inductive ComposeError :=
| CoStash (e : StashError) | CoState (e : StateError) | CoExtract (e : ConsignError)
| NoIfaceImpl (schema iface : N)
| CoBuilder (e : BuilderError)
| InvoiceExpired | NoContract | NoIface | BeneficiaryVout | NoBeneficiaryOutput
| NoBlankOrChange (v : VelocityHint) (ty : N)
| InsufficientState | TooManyInputs | TooManyBlanks.

Definition co_stash {A} : result StashError A -> result ComposeError A := rmap_err CoStash.
Definition co_state {A} : result StateError A -> result ComposeError A := rmap_err CoState.
Definition co_extract {A} : result ConsignError A -> result ComposeError A := rmap_err CoExtract.
Definition co_builder {A} : result BuilderError A -> result ComposeError A := rmap_err CoBuilder.

(** [Amount] has the operators of [u64], which panic on overflow in checked builds and wrap
    around in others. *)
Definition add64 (wrap : bool) (a b : N) : result ComposeError N :=
  if a + b <=? U64MAX then Ok (a + b) else if wrap then Ok ((a + b) mod (U64MAX + 1)) else Panic.
Definition sub64 (wrap : bool) (a b : N) : result ComposeError N :=
  if b <=? a then Ok (a - b) else if wrap then Ok (a + (U64MAX + 1) - b) else Panic.

(** ** Builders, stash.rs *)

(** stash.rs 735-741 ([contract_schema]) *)
Definition contract_schema (s : MemStash) (cid : N) : result StashError SchemaIfaces :=
  let! g := stash_genesis s cid in stash_schema s (op_ty g).

(** What a builder is made for *)
Definition build_ctx (D : Defs) (schema : SchemaRec) (i : IfaceRec) (im : ImplRec) (types : omap N N) : BuildCtx :=
  {| bc_schema := df_schema D schema; bc_iface := df_iface D i; bc_impl := df_impl D im;
     bc_fits := df_fits D types; bc_layer := df_layer D |}.

(** stash.rs 381-385, 427-431: a tag which is not accepted is a panic *)
Definition add_tags (X : BuildCtx) (b : TrBuilder) (tags : omap N N) : result ComposeError TrBuilder :=
  rfold (fun b p => match t_call X b (TAssetTagRaw (fst p) (snd p)) with Ok b' => Ok b' | _ => Panic end) b tags.

(** stash.rs 345-388 ([transition_builder]): an unknown operation is a panic.  With the builder
    goes what it is made for. *)
Definition transition_builder (D : Defs) (s : MemStash) (cid iface : N) (name : option N) : result ComposeError (BuildCtx * TrBuilder) :=
  let! si := co_stash (contract_schema s cid) in
  let! i := co_stash (iface_by_name s iface) in
  let! im := ok_or (NoIfaceImpl (sch_id (si_schema si)) (if_id i)) (impl_get si (if_id i)) in
  let! g := co_stash (stash_genesis s cid) in
  let! ex := co_extract (extract s (si_schema si) [i]) in
  let X := build_ctx D (si_schema si) i im (fst ex) in
  let! b := match (match name with Some n => named_transition X cid n | None => default_transition X cid end) with
            | Ok b => Ok b
            | _ => Panic
            end in
  let! b := add_tags X b (df_tags D g) in
  Ok (X, b).

(** stash.rs 390-434 ([blank_builder]): without an implementation of the interface which is
    asked for, the first one there is *)
Definition blank_builder (D : Defs) (s : MemStash) (cid iface : N) : result ComposeError (BuildCtx * TrBuilder) :=
  let! si := co_stash (contract_schema s cid) in
  let! i := co_stash (iface_by_name s iface) in
  match si_impls si with
  | [] => Err (NoIfaceImpl (sch_id (si_schema si)) (if_id i))
  | first :: _ =>
      let! g := co_stash (stash_genesis s cid) in
      let! ex := co_extract (extract s (si_schema si) [i]) in
      let! p := match impl_get si (if_id i) with
                | Some im => Ok (i, im)
                | None => let! i' := co_stash (iface_by_name s (fst first)) in Ok (i', snd first)
                end in
      let X := build_ctx D (si_schema si) (fst p) (snd p) (fst ex) in
      let! b := add_tags X (blank_transition cid) (df_tags D g) in
      Ok (X, b)
  end.

(** ** The state on outputs *)

(** stock.rs 625-661: one item of the state is put under its seal and output *)
Definition put_spending (m : Spending) (a : OutAssign) : Spending :=
  minsert (oa_seal a)
    (minsert (oa_opout a) (oa_state a) match mget (oa_seal a) m with Some l => l | None => [] end) m.

(** stock.rs 610-666 ([contract_assignments_for]) *)
Definition contract_assignments_for (s : MemState) (cid : N) (outpoints : list Outpoint) : result ComposeError Spending :=
  let! c := co_state (contract_state s cid) in
  Ok (fold_left (fun m a => if existsb (keqb (os_outpoint (oa_seal a))) outpoints then put_spending m a else m)
        (outs_all KFungible c ++ outs_all KStructured c ++ outs_all KDeclarative c ++ outs_all KAttachment c) []).

(** The entries of the hash maps as they are listed *)
Definition listed (od : Orders) (cid : N) (m : Spending) : list (OutSeal * (Opout * RState)) :=
  flat_map (fun p => map (pair (fst p)) (or_assigns od cid (fst p) (snd p))) (or_outs od cid m).
Definition of_method (m : CloseMethod) (s : OutSeal) : bool := keqb (os_method s) m.
(** The outputs which are spent with a method, in the order in which they are listed: the
    vectors [main_inputs], [alt_inputs], [outputs_tapret] and [outputs_opret] *)
Definition outputs_with (od : Orders) (cid : N) (m : Spending) (f : OutSeal -> bool) : list OutSeal :=
  filter f (map fst (or_outs od cid m)).

(** src/persistence/state.rs 88-95 ([update_blinding]) *)
Definition update_blinding (st : RState) (b : N) : RState :=
  match st with RAmount v _ tag => RAmount v b tag | _ => st end.

(** src/containers/suppl.rs 42 *)
Definition SUPPL_ANNOT_VELOCITY : str := lit "Velocity"%string.

(** ** Composing *)
Section Compose.
Context (H : Hashes) (D : Defs) (P : Pedersen) (wrap : bool) (s : Stock) (ch : Choices) (od : Orders).

(** stock.rs 953-968: the velocity which the first supplement of the contract gives the type *)
Definition velocity_for (cid ty : N) : VelocityHint :=
  match stash_supplements (sk_stash s) (TagGenesis, cid) with
  | sup :: _ =>
      match suppl_get (df_velocity D) (df_suppl D sup) SubAssignment (ItTypeNo ty) SUPPL_ANNOT_VELOCITY with
      | Some (Some v) => v
      | _ => VhUnspecified
      end
  | [] => VhUnspecified
  end.

(** stock.rs 949-974 ([output_for_assignment]) *)
Definition output_for (u : Use) (method : CloseMethod) (layer : Layer1) (cid ty : N) : result ComposeError BSeal :=
  let v := velocity_for cid ty in
  let! vout := ok_or (NoBlankOrChange v ty) (ch_alloc ch u cid ty v) in
  Ok (BRevealed {| s_layer := layer; s_method := method; s_txid := None; s_vout := vout; s_blinding := ch_seal ch u cid ty |}).

(** What the loop of 1034-1075 changes *)
Record Work := {
  wk_main : TrBuilder; wk_alt : TrBuilder;
  wk_sum : N; wk_sum_alt : N;
  wk_data : list N; wk_data_main : bool
}.
Definition wk_call (X : BuildCtx) (main : bool) (c : TCall) (w : Work) : result ComposeError Work :=
  let! b := co_builder (t_call X (if main then wk_main w else wk_alt w) c) in
  Ok {| wk_main := if main then b else wk_main w; wk_alt := if main then wk_alt w else b;
        wk_sum := wk_sum w; wk_sum_alt := wk_sum_alt w; wk_data := wk_data w; wk_data_main := wk_data_main w |}.

(** stock.rs 1042-1074: one output of the contract which is spent; [a] is the type of the
    payment, [lookup] the allocation which is asked for *)
Definition spend (X : BuildCtx) (method : CloseMethod) (layer : Layer1) (cid a : N) (lookup : option N) (w : Work)
  (p : OutSeal * (Opout * RState)) : result ComposeError Work :=
  let (seal, q) := p in
  let (o, st) := q in
  let main := of_method method seal in
  let! w := wk_call X main (TInput o st) w in
  if negb (oo_ty o =? a) then
    let! out := output_for (UMain seal o) method layer cid (oo_ty o) in
    wk_call X main (TOwnedRaw (oo_ty o) out (update_blinding st (ch_blind ch (UMain seal o) cid a))) w
  else
    match st with
    | RAmount v _ _ =>
        let! sum := add64 wrap (wk_sum w) v in
        let! sum_alt := if main then Ok (wk_sum_alt w) else add64 wrap (wk_sum_alt w) v in
        Ok {| wk_main := wk_main w; wk_alt := wk_alt w; wk_sum := sum; wk_sum_alt := sum_alt;
              wk_data := wk_data w; wk_data_main := wk_data_main w |}
    | RData v _ =>
        Ok {| wk_main := wk_main w; wk_alt := wk_alt w; wk_sum := wk_sum w; wk_sum_alt := wk_sum_alt w;
              wk_data := wk_data w ++ [v];
              wk_data_main := if keqb lookup (Some v) && negb main then false else wk_data_main w |}
    | _ => Ok w
    end.

(** stock.rs 1078-1131: an amount *)
Definition pay_amount (X : BuildCtx) (method : CloseMethod) (layer : Layer1) (cid a : N) (ben : BSeal) (amt : N) (w : Work)
  : result ComposeError Work :=
  if wk_sum w <? amt then Err InsufficientState
  else
    let! sum_main := sub64 wrap (wk_sum w) (wk_sum_alt w) in
    let (paid_main, paid_alt) := if sum_main <? amt then (sum_main, amt - sum_main) else (amt, 0) in
    let blinding := ch_blind ch UPayment cid a in
    let! w := if 0 <? paid_main then wk_call X true (TFungibleRaw a ben paid_main blinding) w else Ok w in
    let! w := if 0 <? paid_alt then wk_call X false (TFungibleRaw a ben paid_alt blinding) w else Ok w in
    let blinding := ch_blind ch UChange cid a in
    let! change := output_for UChange method layer cid a in
    let! w := if paid_main <? sum_main then wk_call X true (TFungibleRaw a change (sum_main - paid_main) blinding) w else Ok w in
    if paid_alt <? wk_sum_alt w then wk_call X false (TFungibleRaw a change (wk_sum_alt w - paid_alt) blinding) w else Ok w.

(** stock.rs 1132-1156: an allocation *)
Definition pay_data (X : BuildCtx) (cid a : N) (ben : BSeal) (alloc : N) (w : Work) : result ComposeError Work :=
  if existsb (N.eqb alloc) (wk_data w)
  then wk_call X (wk_data_main w) (TDataRaw a ben alloc (ch_seal ch USalt cid a)) w
  else Err InsufficientState.

(** stock.rs 1076-1162; other kinds of state are a panic ([todo!]) *)
Definition pay (X : BuildCtx) (method : CloseMethod) (layer : Layer1) (cid a : N) (ben : BSeal) (st : InvoiceState) (w : Work)
  : result ComposeError Work :=
  match st with
  | ISAmount amt => pay_amount X method layer cid a ben amt w
  | ISData al => pay_data X cid a ben (df_alloc D al) w
  | _ => Panic
  end.

(** stock.rs 1197-1215 and 1227-1241: a builder is completed *)
Definition finish (b : TrBuilder) (outputs : list OutSeal) : result ComposeError TransitionInfo :=
  let! t := co_builder (complete_transition P (or_rights od) b) in
  match transition_info_new H t outputs with
  | Ok i => Ok i
  | Err _ => Err TooManyInputs
  | Panic => Panic
  end.

(** stock.rs 1166-1178: the state of other contracts on the outputs *)
Definition merge_spending (m new : Spending) : Spending :=
  fold_left (fun m p =>
    minsert (fst p) (fold_left (fun l q => minsert (fst q) (snd q) l) (snd p) match mget (fst p) m with Some l => l | None => [] end) m)
    new m.
Definition spent_state (cid : N) (outpoints : list Outpoint) : result ComposeError (omap N Spending) :=
  rfold (fun acc id =>
           if id =? cid then Ok acc
           else let! m := contract_assignments_for (sk_state s) id outpoints in
                Ok (minsert id (merge_spending match mget id acc with Some m' => m' | None => [] end m) acc))
    [] (contracts_assigning (sk_index s) (sfrom outpoints)).

(** stock.rs 1187-1202: one output of another contract; the builders are those for Tapret and
    for Opret *)
Definition blank_spend (X : BuildCtx) (method : CloseMethod) (layer : Layer1) (id : N) (w : TrBuilder * TrBuilder)
  (p : OutSeal * (Opout * RState)) : result ComposeError (TrBuilder * TrBuilder) :=
  let (seal, q) := p in
  let (o, st) := q in
  let! out := output_for (UBlank seal o) method layer id (oo_ty o) in
  let both b := let! b := co_builder (t_call X b (TInput o st)) in co_builder (t_call X b (TOwnedRaw (oo_ty o) out st)) in
  match os_method seal with
  | TapretFirst => let! b := both (fst w) in Ok (b, snd w)
  | OpretFirst => let! b := both (snd w) in Ok (fst w, b)
  end.

(** stock.rs 1181-1220: the blank transitions of another contract *)
Definition blank_for (method : CloseMethod) (layer : Layer1) (iface : N) (p : N * Spending)
  : result ComposeError (Dichotomy TransitionInfo) :=
  let (id, m) := p in
  let! tapret := blank_builder D (sk_stash s) id iface in
  let! opret := blank_builder D (sk_stash s) id iface in
  let! w := rfold (blank_spend (fst tapret) method layer id) (snd tapret, snd opret) (listed od id m) in
  let! infos := rfold (fun acc q =>
                  let (b, outputs) := q : TrBuilder * list OutSeal in
                  if has_inputs b then let! i := finish b outputs in Ok (acc ++ [i]) else Ok acc)
                  [] [(fst w, outputs_with od id m (of_method TapretFirst)); (snd w, outputs_with od id m (of_method OpretFirst))] in
  di_from_iter infos.

Definition blanks_for (method : CloseMethod) (layer : Layer1) (iface : N) (m : list (N * Spending))
  : result ComposeError (list (Dichotomy TransitionInfo)) :=
  rfold (fun acc p => let! d := blank_for method layer iface p in ok_or TooManyBlanks (cpush_back (U24MAX - 1) d acc)) [] m.

(** stock.rs 1003-1023: the seal of the beneficiary *)
Definition beneficiary_seal (layer : Layer1) (cid a : N) (b : Beneficiary) (vout : option N) : result ComposeError BSeal :=
  match b, vout with
  | BlindedSeal x, None => Ok (BConcealed (df_secret D layer x))
  | BlindedSeal _, Some _ => Err BeneficiaryVout
  | WitnessVout p, Some v =>
      Ok (BRevealed {| s_layer := layer; s_method := p2v_method p; s_txid := None; s_vout := v; s_blinding := ch_seal ch UBeneficiary cid a |})
  | WitnessVout _, None => Err NoBeneficiaryOutput
  end.

(** stock.rs 983-996: the type of state which is paid *)
Definition payment_type (X : BuildCtx) (b : TrBuilder) (assignment : option str) : result ComposeError N :=
  let! name := match assignment with
               | Some n => Ok (df_name D n)
               | None => match default_assignment X b with
                         | Ok n => Ok n
                         | Err _ => Err (CoBuilder NoDefaultAssignment)
                         | Panic => Panic
                         end
               end in
  ok_or (CoBuilder (InvalidStateField name)) (assigns_type X name).

(** stock.rs 932-1247 ([compose_deterministic]); [now] is the clock *)
Definition compose (inv : RgbInvoice) (prev : list OutSeal) (method : CloseMethod) (vout : option N) (priority : N) (now : Z)
  : result ComposeError Batch :=
  let layer := layer1 (chain_network (beneficiary inv)) in
  let outpoints := map os_outpoint prev in
  if match expiry inv with Some t => (t <? now)%Z | None => false end then Err InvoiceExpired
  else
    let! cid := ok_or NoContract (InvoiceModel.contract inv) in
    let! iface := rmap (df_name D) (ok_or NoIface (InvoiceModel.iface inv)) in
    let! main := transition_builder D (sk_stash s) cid iface (option_map (df_name D) (InvoiceModel.operation inv)) in
    let! a := payment_type (fst main) (snd main) (InvoiceModel.assignment inv) in
    let! alt := transition_builder D (sk_stash s) cid iface (option_map (df_name D) (InvoiceModel.operation inv)) in
    let! ben := beneficiary_seal layer cid a (xcn_into_inner (beneficiary inv)) vout in
    let X := fst main in
    let lookup := match owned_state inv with ISData al => Some (df_alloc D al) | _ => None end in
    let! m := contract_assignments_for (sk_state s) cid outpoints in
    let! w := rfold (spend X method layer cid a lookup)
                {| wk_main := snd main; wk_alt := snd alt; wk_sum := 0; wk_sum_alt := 0; wk_data := []; wk_data_main := true |}
                (listed od cid m) in
    let! w := pay X method layer cid a ben (owned_state inv) w in
    let! spent := spent_state cid outpoints in
    let! blanks := blanks_for method layer iface (or_contracts od spent) in
    let main_inputs := outputs_with od cid m (of_method method) in
    let alt_inputs := outputs_with od cid m (fun x => negb (of_method method x)) in
    let! builders :=
      match has_inputs (wk_main w), has_inputs (wk_alt w) with
      | true, true => Ok (wk_main w, main_inputs, Some (wk_alt w, alt_inputs))
      | true, false => Ok (wk_main w, main_inputs, None)
      | false, true => Ok (wk_alt w, alt_inputs, None)
      | false, false => Err InsufficientState
      end in
    let! first := finish (fst (fst builders)) (snd (fst builders)) in
    let! second := match snd builders with
                   | Some (b, outputs) => rmap Some (finish b outputs)
                   | None => Ok None
                   end in
    Ok (set_priority priority {| ba_main := {| di_first := first; di_second := second |}; ba_blanks := blanks |}).
End Compose.
