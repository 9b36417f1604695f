(** * Reading the text of an invoice: the whole text (C81) *)
From Coq Require Import Ascii String.
From Verif Require Import Base Str AmountModel AmountSpec InvoiceModel InvoiceSpec InvoiceProofs ReadSpec ReadProofs.
Local Open Scope N_scope.

Lemma escaped_no L c s : ~ In c L -> plain_sep c -> escaped L s -> ~ In c s.
Proof.
  intros Nl (Np & Nh) E. induction E as [|x s Hx Hs IH|h l a b s Hh Hl Hs IH].
  - auto.
  - intros [X|X]; [congruence|contradiction].
  - apply hexval_iff in Hh, Hl. intros [X|[X|[X|X]]]; congruence.
Qed.
Lemma letters_no ok L c : letters_ok ok L -> ok c = false -> ~ In c L.
Proof. intros HL E X. apply HL in X. congruence. Qed.

Definition opt_text (c : ascii) (o : option str) : str := match o with Some q => c :: q | None => [] end.

Lemma path_no_hash s : escaped path_letters s -> ~ In "#"%char s.
Proof. apply escaped_no; [apply (letters_no _ _ _ path_ok); reflexivity|split; [discriminate|reflexivity]]. Qed.
Lemma path_no_query s : escaped path_letters s -> ~ In "?"%char s.
Proof. apply escaped_no; [apply (letters_no _ _ _ path_ok); reflexivity|split; [discriminate|reflexivity]]. Qed.
Lemma query_no_hash s : escaped query_letters s -> ~ In "#"%char s.
Proof. apply escaped_no; [apply (letters_no _ _ _ query_ok); reflexivity|split; [discriminate|reflexivity]]. Qed.

Lemma split_opt c s : let p := match split_once c s with Some (a, b) => (a, Some b) | None => (s, None) end in
  s = fst p ++ opt_text c (snd p).
Proof.
  cbv zeta. destruct (split_once c s) as [[a b]|] eqn:E; cbn [fst snd opt_text].
  - apply split_once_Some in E as (-> & _). reflexivity.
  - rewrite app_nil_r. reflexivity.
Qed.
Lemma split_opt_make c a o : ~ In c a ->
  match split_once c (a ++ opt_text c o) with Some (x, y) => (x, Some y) | None => (a ++ opt_text c o, None) end = (a, o).
Proof.
  intros Nc. destruct o as [q|]; cbn [opt_text].
  - rewrite split_once_app by exact Nc. reflexivity.
  - rewrite app_nil_r. destruct (split_once c a) as [[x y]|] eqn:E; [|reflexivity]. apply split_once_Some in E as (-> & _).
    destruct Nc. apply in_or_app. right. left. reflexivity.
Qed.

Lemma opt_ok_iff o : match o with Some q => uri_chars_ok is_query_char q | None => true end = true <-> forall t, o = Some t -> escaped query_letters t.
Proof.
  destruct o as [q|].
  - rewrite (escaped_iff _ _ q query_ok query_no_pct). split; [intros E t X; injection X as <-; exact E|]. intros F. apply F. reflexivity.
  - split; [discriminate|reflexivity].
Qed.

Lemma rgb_colon p : escaped path_letters (lit "rgb" ++ ":"%char :: p) <-> escaped path_letters p.
Proof.
  split.
  - intros E. apply escaped_sep in E as (_ & _ & E); [exact E|exact sep_colon].
  - intros E. apply (escaped_app _ (lit "rgb:")); [|exact E]. apply escaped_lit. intros c Hc. apply (path_ok c).
    destruct Hc as [<-|[<-|[<-|[<-|[]]]]]; reflexivity.
Qed.

Lemma uri_inv s u : uri_parse s = Ok u -> uri_scheme u = Some (lit "rgb") -> exists frag,
  s = lit "rgb:" ++ uri_path u ++ opt_text "?"%char (uri_query u) ++ opt_text "#"%char frag /\
  escaped path_letters (uri_path u) /\ (forall t, uri_query u = Some t -> escaped query_letters t) /\ (forall t, frag = Some t -> escaped query_letters t).
Proof.
  unfold uri_parse. pose proof (split_opt "#"%char s) as E1. cbv zeta in E1.
  destruct (match split_once "#"%char s with Some (a, b) => (a, Some b) | None => (s, None) end) as [s1 frag]. cbn [fst snd] in E1.
  pose proof (split_opt "?"%char s1) as E2. cbv zeta in E2.
  destruct (match split_once "?"%char s1 with Some (a, b) => (a, Some b) | None => (s1, None) end) as [s2 query]. cbn [fst snd] in E2.
  cbv zeta beta.
  destruct (match frag with Some q => uri_chars_ok is_query_char q | None => true end) eqn:Of; cbn [andb negb]; [|discriminate].
  destruct (match query with Some q => uri_chars_ok is_query_char q | None => true end) eqn:Oq; cbn [andb negb]; [|discriminate].
  destruct (uri_chars_ok is_path_char s2) eqn:Op; cbn [negb]; [|discriminate].
  destruct (split_once ":"%char s2) as [[sch rest]|] eqn:Ec.
  - destruct (scheme_ok sch); [|discriminate]. intros X Es. apply Ok_inj in X. subst u. cbn [uri_scheme uri_path uri_query] in *. injection Es as ->.
    apply split_once_Some in Ec as (-> & _). exists frag. split.
    + rewrite E1, E2. rewrite <- !app_assoc. reflexivity.
    + apply (escaped_iff _ _ _ path_ok path_no_pct) in Op. split; [exact (proj1 (rgb_colon rest) Op)|]. split; apply opt_ok_iff; assumption.
  - intros X Es. apply Ok_inj in X. subst u. discriminate.
Qed.

Lemma uri_make path query frag : escaped path_letters path ->
  (forall t, query = Some t -> escaped query_letters t) -> (forall t, frag = Some t -> escaped query_letters t) ->
  uri_parse (lit "rgb:" ++ path ++ opt_text "?"%char query ++ opt_text "#"%char frag) =
  Ok {| uri_scheme := Some (lit "rgb"); uri_authority := match strip_prefix (lit "//") path with Some _ => true | None => false end;
        uri_path := path; uri_query := query |}.
Proof.
  intros Ep Eq Ef.
  assert (Er : escaped path_letters (lit "rgb" ++ ":"%char :: path)) by (apply rgb_colon, Ep).
  replace (lit "rgb:" ++ path ++ opt_text "?"%char query ++ opt_text "#"%char frag)
    with (((lit "rgb" ++ ":"%char :: path) ++ opt_text "?"%char query) ++ opt_text "#"%char frag)
    by (rewrite <- !app_assoc; reflexivity).
  unfold uri_parse. rewrite split_opt_make.
  2:{ intros X. apply in_app_or in X as [X|X]; [exact (path_no_hash _ Er X)|]. destruct query as [q|]; [|destruct X].
      destruct X as [X|X]; [discriminate|]. exact (query_no_hash q (Eq q eq_refl) X). }
  rewrite split_opt_make by (apply path_no_query, Er). cbv zeta beta.
  rewrite (proj2 (opt_ok_iff frag) Ef), (proj2 (opt_ok_iff query) Eq), (proj2 (escaped_iff _ _ _ path_ok path_no_pct) Er). cbn [andb negb].
  rewrite split_once_app by (vm_compute; intuition discriminate). reflexivity.
Qed.

(** ** The path *)
Lemma segments_inv path a b c rest : split_all "/"%char path = a :: b :: c :: rest ->
  exists more, path = a ++ "/"%char :: b ++ "/"%char :: c ++ more /\ ~ In "/"%char a /\ ~ In "/"%char b /\ ~ In "/"%char c /\
    (more = [] \/ exists m, more = "/"%char :: m).
Proof.
  intros E. apply parted_iff in E as (_ & -> & Nc). exists (match rest with [] => [] | _ => "/"%char :: join ["/"%char] rest end).
  split; [destruct rest; cbn [join app]; [rewrite app_nil_r; reflexivity|reflexivity]|].
  split; [apply Nc; left; reflexivity|]. split; [apply Nc; right; left; reflexivity|]. split; [apply Nc; right; right; left; reflexivity|].
  destruct rest; [left; reflexivity|right; eauto].
Qed.
Lemma segments_make a b c more : ~ In "/"%char a -> ~ In "/"%char b -> ~ In "/"%char c -> (more = [] \/ exists m, more = "/"%char :: m) ->
  exists rest, split_all "/"%char (a ++ "/"%char :: b ++ "/"%char :: c ++ more) = a :: b :: c :: rest.
Proof.
  intros Na Nb Nc Hm. rewrite split_all_app by exact Na. rewrite split_all_app by exact Nb. destruct Hm as [->|(m & ->)].
  - rewrite app_nil_r, split_all_noc by exact Nc. exists []. reflexivity.
  - rewrite split_all_app by exact Nc. eauto.
Qed.

Section Whole.
Context (C : Codecs) (HB : forall t l, baid_parse C t = Some l -> bytes 34 l).

Definition third (a : str) : result InvoiceParseError (str * InvoiceState) :=
  match split_once "+"%char a with
  | Some (a, b) => match state_from_str C a with Some st => Ok (b, st) | None => Err EData end
  | None => Ok (a, ISVoid)
  end.
Lemma third_iff a st b : (exists t, third a = Ok (t, st) /\ beneficiary_from_str C t = Ok b) <-> reads_assignment C a st b.
Proof.
  unfold third, reads_assignment. split.
  - intros (t & E & Eb). apply (beneficiary_iff C HB) in Eb. destruct (split_once "+"%char a) as [[x y]|] eqn:Es.
    + apply split_once_Some in Es as (-> & Nx). destruct (state_from_str C x) as [st'|] eqn:Ex; [|discriminate]. apply Ok_inj in E. injection E as -> ->.
      apply state_iff in Ex. right. exists x, t. auto.
    + apply split_once_None in Es. apply Ok_inj in E. injection E as -> <-. left. auto.
  - intros [(Np & -> & Hb)|(x & t & -> & Nx & Hs & Hb)]; apply (beneficiary_iff C HB) in Hb.
    + exists a. apply split_once_None in Np. rewrite Np. auto.
    + exists t. rewrite split_once_app by exact Nx. apply state_iff in Hs. rewrite Hs. auto.
Qed.

(** Endpoints and expiry *)
Definition ep_of (ep : option str) : result InvoiceParseError (list RgbTransport) :=
  match ep with
  | Some ep => rfold (fun l t => let! t := rmap_err (fun _ => EInvalidQueryParam) (transport_from_str t) in Ok (l ++ [t])) [] (split_all TRANSPORT_SEP ep)
  | None => Ok [UnspecifiedMeans]
  end.
Definition ex_of (ex : option str) : result InvoiceParseError (option Z) :=
  match ex with
  | Some e => let! t := ok_or EInvalidExpiration (i64_parse e) in Ok (Some t)
  | None => Ok None
  end.

Lemma removed k ps : let r := imap_remove k (imap_extend [] ps) in
  snd r = without k (imap_extend [] ps) /\ (forall v, fst r = Some v <-> last_value k ps v) /\ (fst r = None <-> ~ In k (map fst ps)).
Proof.
  destruct (extend_spec ps) as (Nd & Al & _). destruct (remove_spec k _ Nd) as (E1 & E2). cbv zeta. split; [exact E1|].
  assert (Hv : forall v, fst (imap_remove k (imap_extend [] ps)) = Some v <-> last_value k ps v) by (intros v; rewrite E2; apply Al).
  split; [exact Hv|]. split.
  - intros En X. apply last_key in X as (v & X). apply Hv in X. congruence.
  - intros Nk. destruct (fst _) as [v|] eqn:Ev; [|reflexivity]. destruct Nk. apply last_key. exists v. apply Hv. reflexivity.
Qed.

Lemma last_fun k ps v v' : last_value k ps v -> last_value k ps v' -> v = v'.
Proof. intros A B. destruct (removed k ps) as (_ & R & _). apply R in A, B. congruence. Qed.

Lemma endpoints_iff ps ts : ep_of (fst (imap_remove (lit "endpoints") (imap_extend [] ps))) = Ok ts <-> reads_endpoints ps ts.
Proof.
  destruct (removed (lit "endpoints") ps) as (_ & Rv & Rn). unfold reads_endpoints. destruct (fst _) as [v|] eqn:E; cbn [ep_of].
  - rewrite transports_fold. split.
    + intros (ts' & D & ->). right. exists v, (split_all ","%char v). split; [apply Rv; reflexivity|]. split; [apply split_all_parted|exact D].
    + intros [(X & _)|(v' & parts & Lv & Pp & D)]; [apply Rn in X; discriminate|]. apply Rv in Lv. injection Lv as <-. apply parted_iff in Pp.
      exists ts. split; [|reflexivity]. unfold TRANSPORT_SEP. rewrite Pp. exact D.
  - split.
    + intros X. apply Ok_inj in X. subst ts. left. split; [apply Rn; reflexivity|reflexivity].
    + intros [(_ & ->)|(v' & parts & Lv & _)]; [reflexivity|]. apply Rv in Lv. discriminate.
Qed.

Lemma expiry_iff ps e : ex_of (fst (imap_remove (lit "expiry") (without (lit "endpoints") (imap_extend [] ps)))) = Ok e <-> reads_expiry ps e.
Proof.
  destruct (extend_spec ps) as (Nd & Al & _).
  destruct (remove_spec (lit "expiry") _ (without_nodup (lit "endpoints") _ Nd)) as (_ & Rv).
  assert (Rv' : forall v, fst (imap_remove (lit "expiry") (without (lit "endpoints") (imap_extend [] ps))) = Some v <-> last_value (lit "expiry") ps v).
  { intros v. rewrite Rv, without_In, Al. split; [tauto|]. intros X. split; [discriminate|exact X]. }
  unfold reads_expiry. destruct (fst _) as [v|]; cbn [ex_of].
  - destruct (i64_parse v) as [z|] eqn:Ez; cbn [ok_or rbind].
    + split.
      * intros X. apply Ok_inj in X. subst e. right. exists v, z. split; [apply Rv'; reflexivity|]. split; [apply signed_iff, Ez|reflexivity].
      * intros [(X & _)|(v' & z' & Lv & Sg & ->)].
        -- destruct X. apply last_key. exists v. apply Rv'. reflexivity.
        -- apply Rv' in Lv. injection Lv as <-. apply signed_iff in Sg. congruence.
    + split; [discriminate|]. intros [(X & _)|(v' & z' & Lv & Sg & ->)].
      * destruct X. apply last_key. exists v. apply Rv'. reflexivity.
      * apply Rv' in Lv. injection Lv as <-. apply signed_iff in Sg. congruence.
  - split.
    + intros X. apply Ok_inj in X. subst e. left. split; [|reflexivity]. intros X. apply last_key in X as (v & X). apply Rv' in X. discriminate.
    + intros [(_ & ->)|(v & z & Lv & _)]; [reflexivity|]. apply Rv' in Lv. discriminate.
Qed.

(** The query of a text *)
Definition query_of (q : option str) (k : list RgbTransport -> option Z -> list (str * str) -> RgbInvoice) : result InvoiceParseError RgbInvoice :=
  let! query_params := map_query_params C q in
  let '(ep, query_params) := imap_remove ENDPOINTS query_params in
  let! transports := ep_of ep in
  let '(ex, query_params) := imap_remove EXPIRY query_params in
  let! expiry := ex_of ex in
  Ok (k transports expiry query_params).

Lemma query_iff q k i : (forall t, q = Some t -> escaped query_letters t) ->
  (query_of q k = Ok i <-> exists ps ts e uq, params C q ps /\ reads_endpoints ps ts /\ reads_expiry ps e /\ others ps uq /\ i = k ts e uq).
Proof.
  intros Eq. unfold query_of. split.
  - destruct (map_query_params C q) as [m| |] eqn:Em; cbn [rbind]; try discriminate. apply (params_iff C q m Eq) in Em as (ps & Hp & ->).
    pose proof (endpoints_iff ps) as He. pose proof (removed (lit "endpoints") ps) as (R1 & _). cbv zeta in R1.
    change ENDPOINTS with (lit "endpoints"). change EXPIRY with (lit "expiry").
    destruct (imap_remove (lit "endpoints") (imap_extend [] ps)) as [ep m1]. cbn [fst snd] in *. subst m1.
    destruct (ep_of ep) as [ts| |] eqn:Et; cbn [rbind]; try discriminate. pose proof (proj1 (He ts) eq_refl) as Et'.
    pose proof (expiry_iff ps) as Hx. pose proof (others_made ps) as Ho.
    destruct (remove_spec (lit "expiry") _ (without_nodup (lit "endpoints") _ (proj1 (extend_spec ps)))) as (R2 & _).
    destruct (imap_remove (lit "expiry") (without (lit "endpoints") (imap_extend [] ps))) as [ex m2]. cbn [fst snd] in *. subst m2.
    destruct (ex_of ex) as [e| |] eqn:Ee; cbn [rbind]; try discriminate. pose proof (proj1 (Hx e) eq_refl) as Ee'.
    intros X. apply Ok_inj in X. subst i. exists ps, ts, e. eexists. repeat (split; [eassumption|]). reflexivity.
  - intros (ps & ts & e & uq & Hp & He & Hx & Ho & ->).
    rewrite (proj2 (params_iff C q (imap_extend [] ps) Eq)) by eauto. cbn [rbind]. apply endpoints_iff in He. apply expiry_iff in Hx. apply others_iff in Ho. subst uq.
    pose proof (removed (lit "endpoints") ps) as (R1 & _). cbv zeta in R1.
    change ENDPOINTS with (lit "endpoints"). change EXPIRY with (lit "expiry").
    destruct (imap_remove (lit "endpoints") (imap_extend [] ps)) as [ep m1]. cbn [fst snd] in *. subst m1. rewrite He. cbn [rbind].
    destruct (remove_spec (lit "expiry") _ (without_nodup (lit "endpoints") _ (proj1 (extend_spec ps)))) as (R2 & _).
    destruct (imap_remove (lit "expiry") (without (lit "endpoints") (imap_extend [] ps))) as [ex m2]. cbn [fst snd] in *. subst m2. rewrite Hx. reflexivity.
Qed.

Definition contract_of (s : str) : result InvoiceParseError (option N) :=
  match cid_parse C s with
  | Some c => Ok (Some c)
  | None => if streqb s OMITTED then Ok None else Err EInvalidContractId
  end.
Lemma contract_iff s c : contract_of s = Ok c <-> reads_contract C s c.
Proof.
  unfold contract_of, reads_contract. destruct (cid_parse C s) as [x|].
  - split; [intros X; apply Ok_inj in X; subst c; reflexivity|]. destruct c as [y|]; [congruence|]. intros (X & _). discriminate.
  - destruct (streqb s OMITTED) eqn:E.
    + apply streqb_eq in E. split; [intros X; apply Ok_inj in X; subst c; auto|]. destruct c as [y|]; [discriminate|reflexivity].
    + split; [discriminate|]. destruct c as [y|]; [discriminate|]. intros (_ & X). rewrite X in E. discriminate.
Qed.
Definition iface_of (s : str) : result InvoiceParseError (option str) :=
  if typename_ok C s then Ok (Some s) else if streqb s OMITTED then Ok None else Err EInvalidIface.
Lemma iface_iff s c : iface_of s = Ok c <-> reads_iface C s c.
Proof.
  unfold iface_of, reads_iface. destruct (typename_ok C s) eqn:T.
  - split; [intros X; apply Ok_inj in X; subst c; auto|]. destruct c as [y|]; [intros (_ & ->); reflexivity|]. intros (X & _). discriminate.
  - destruct (streqb s OMITTED) eqn:E.
    + apply streqb_eq in E. split; [intros X; apply Ok_inj in X; subst c; auto|]. destruct c as [y|]; [intros (X & _); discriminate|reflexivity].
    + split; [discriminate|]. destruct c as [y|]; [intros (X & _); discriminate|]. intros (_ & X). rewrite X in E. discriminate.
Qed.

(** The parser with its parts named *)
Lemma from_str_eq s : invoice_from_str C s =
  let! uri := uri_parse s in
  let! scheme := ok_or EInvalid (uri_scheme uri) in
  if negb (streqb scheme (lit "rgb")) then Err EInvalidScheme else
  if (match uri_path uri with c :: _ => is_char c "/"%char | [] => false end) || uri_authority uri then Err EAuthority else
  match match uri_path uri with [] => [] | _ => split_all "/"%char (uri_path uri) end with
  | [] => Err EContractMissed
  | cid :: segs =>
      let! contract := contract_of cid in
      match segs with
      | [] => Err EIfaceMissed
      | ifc :: segs =>
          let! iface := iface_of ifc in
          if (match contract, iface with Some _, None => true | _, _ => false end) then Err EContractIdNoIface else
          match segs with
          | [] => Err EAssignmentMissed
          | a :: _ =>
              let! bv := third a in
              let! beneficiary := beneficiary_from_str C (fst bv) in
              query_of (uri_query uri) (fun ts e uq =>
                {| transports := ts; contract := contract; iface := iface; operation := None; assignment := None;
                   beneficiary := beneficiary; owned_state := snd bv; expiry := e; unknown_query := uq |})
          end
      end
  end.
Proof. reflexivity. Qed.

Lemma no_authority path : (match path with c :: _ => is_char c "/"%char | [] => false end) = false ->
  match strip_prefix (lit "//") path with Some _ => true | None => false end = false.
Proof.
  destruct (strip_prefix (lit "//") path) as [r|] eqn:E; [|reflexivity]. apply strip_prefix_Some in E. subst path. discriminate.
Qed.

Theorem from_str_iff s i : invoice_from_str C s = Ok i <-> reads C s i.
Proof.
  rewrite from_str_eq. split.
  - destruct (uri_parse s) as [u| |] eqn:Eu; cbn [rbind]; try discriminate.
    destruct (uri_scheme u) as [sch|] eqn:Es; cbn [ok_or rbind]; [|discriminate].
    destruct (streqb sch (lit "rgb")) eqn:Er; cbn [negb]; [|discriminate]. apply streqb_eq in Er. subst sch.
    destruct (uri_inv s u Eu Es) as (frag & -> & Ep & Eq & Ef). clear Eu.
    destruct ((match uri_path u with c :: _ => is_char c "/"%char | [] => false end) || uri_authority u) eqn:Ea; [discriminate|].
    apply Bool.orb_false_iff in Ea as (Ea & _).
    destruct (match uri_path u with [] => [] | _ => split_all "/"%char (uri_path u) end) as [|a segs] eqn:Eg; [discriminate|].
    assert (Eg' : split_all "/"%char (uri_path u) = a :: segs) by (destruct (uri_path u); [discriminate|exact Eg]). clear Eg.
    destruct (contract_of a) as [cid| |] eqn:Ec; cbn [rbind]; try discriminate. apply contract_iff in Ec.
    destruct segs as [|b segs]; [discriminate|]. destruct (iface_of b) as [ifc| |] eqn:Ei; cbn [rbind]; try discriminate. apply iface_iff in Ei.
    destruct (match cid, ifc with Some _, None => true | _, _ => false end) eqn:En; [discriminate|].
    destruct segs as [|c rest]; [discriminate|].
    destruct (third c) as [[t st]| |] eqn:Et; cbn [rbind fst snd]; try discriminate.
    destruct (beneficiary_from_str C t) as [ben| |] eqn:Eb; cbn [rbind]; try discriminate.
    assert (As : reads_assignment C c st ben) by (apply third_iff; eauto).
    intros X. apply query_iff in X as (ps & ts & e & uq & Hp & He & Hx & Ho & ->); [|exact Eq].
    destruct (segments_inv _ _ _ _ _ Eg') as (more & Epath & Na & Nb & Nc & Hm).
    constructor; cbn [transports contract iface operation assignment beneficiary owned_state expiry unknown_query].
    + exists a, b, c, more, (uri_query u), frag, ps. rewrite Epath in *.
      split. { destruct (uri_query u), frag; cbn [opt_text lit list_ascii_of_string app]; rewrite <- ?app_assoc; cbn [app]; rewrite <- ?app_assoc; cbn [app]; rewrite <- ?app_assoc; reflexivity. }
      split. { intros ->. discriminate Ea. }
      apply escaped_sep in Ep as (Pa & _ & Ep); [|exact sep_slash]. apply escaped_sep in Ep as (Pb & _ & Ep); [|exact sep_slash].
      assert (Pcm : escaped path_letters c /\ (more = [] \/ exists m, more = lit "/" ++ m /\ escaped path_letters m)).
      { destruct Hm as [->|(m & ->)]; [rewrite app_nil_r in Ep; auto|]. apply escaped_sep in Ep as (Pc & _ & Pm); [|exact sep_slash].
        split; [exact Pc|]. right. exists m. auto. }
      destruct Pcm as (Pc & Pm).
      split. { intros x [X|[X|X]]; subst x; auto. }
      split; [exact Pm|]. split. { intros x [X|X]; auto. }
      repeat (split; [assumption|]). assumption.
    + destruct cid, ifc; congruence.
    + auto.
  - intros [(a & b & c & more & query & frag & ps & Es & Na0 & Hs & Hm & Hq & Hc & Hi & Has & Hp & He & Hx & Ho) Hif (Hop & Hasn)].
    destruct (Hs a) as (Pa & Na); [auto|]. destruct (Hs b) as (Pb & Nb); [auto|]. destruct (Hs c) as (Pc & Nc); [auto|].
    set (path := a ++ "/"%char :: b ++ "/"%char :: c ++ more).
    assert (Hm' : more = [] \/ exists m, more = "/"%char :: m) by (destruct Hm as [->|(m & -> & _)]; [auto|right; exists m; reflexivity]).
    assert (Sl : escaped path_letters (lit "/")) by (apply escaped_lit; intros x [<-|[]]; apply path_ok; reflexivity).
    assert (Pm : escaped path_letters more).
    { destruct Hm as [->|(m & -> & Em)]; [constructor|]. apply escaped_app; assumption. }
    assert (Pp : escaped path_letters path).
    { apply escaped_app; [exact Pa|]. apply (escaped_app _ (lit "/")); [exact Sl|]. apply escaped_app; [exact Pb|].
      apply (escaped_app _ (lit "/")); [exact Sl|]. apply escaped_app; assumption. }
    assert (Eq : forall t, query = Some t -> escaped query_letters t) by auto.
    assert (Ef : forall t, frag = Some t -> escaped query_letters t) by auto.
    assert (Es' : s = lit "rgb:" ++ path ++ opt_text "?"%char query ++ opt_text "#"%char frag).
    { rewrite Es. unfold path. destruct query, frag; cbn [opt_text lit list_ascii_of_string app]; rewrite <- ?app_assoc; cbn [app]; rewrite <- ?app_assoc; cbn [app]; rewrite <- ?app_assoc; reflexivity. }
    rewrite Es', (uri_make path query frag Pp Eq Ef). cbn [rbind uri_scheme ok_or]. rewrite streqb_refl. cbn [negb uri_path uri_authority uri_query].
    assert (Ea : (match path with c :: _ => is_char c "/"%char | [] => false end) = false).
    { unfold path. destruct a as [|x a]; [congruence|]. cbn [app]. apply is_char_false. intros ->. apply Na. left. reflexivity. }
    rewrite (no_authority path Ea), Ea. cbn [orb].
    destruct (segments_make a b c more Na Nb Nc Hm') as (rest & Eg). fold path in Eg.
    assert (Eg' : match path with [] => [] | _ => split_all "/"%char path end = a :: b :: c :: rest).
    { rewrite <- Eg. unfold path. destruct a; [congruence|reflexivity]. }
    rewrite Eg'. apply contract_iff in Hc. apply iface_iff in Hi. rewrite Hc. cbn [rbind]. rewrite Hi. cbn [rbind].
    assert (En : match contract i, iface i with Some _, None => true | _, _ => false end = false).
    { destruct (contract i); [|reflexivity]. destruct (iface i); [reflexivity|]. destruct Hif; [discriminate|reflexivity]. }
    rewrite En. apply third_iff in Has as (t & Et & Eb). rewrite Et. cbn [rbind fst snd]. rewrite Eb. cbn [rbind].
    apply query_iff; [exact Eq|]. exists ps, (transports i), (expiry i), (unknown_query i). repeat (split; [assumption|]).
    destruct i. cbn in *. subst. reflexivity.
Qed.

End Whole.
