(** C20, C21, C22, C56 *)
From Coq Require Import Ascii String.
From Verif Require Import Base Str.
From Verif Require Import SupplModel SupplSpec SupplProofs.
Local Open Scope list_scope.
Local Open Scope N_scope.

(** ** C20 *)
(** A successful write stores the value, changes no other annotation, and reports
    whether a value was replaced. *)
Theorem C20_annotate_ok : forall T (ser : T -> option blob) de sub item name data s s' prev,
  suppl_wf s -> reads_back ser de ->
  annotate ser sub item name data s = (s', Ok prev) ->
  suppl_get de s' sub item name = Some (Some data) /\
  (forall k, k <> (sub, item, name) -> view s' k = view s k) /\
  (prev = true <-> exists b, view s (sub, item, name) = Some b) /\
  same_header s s' /\ suppl_wf s'.
Proof.
  intros T ser de sub item name data s s' prev Hw Hr E.
  pose proof (annotate_spec ser sub item name data s Hw) as S.
  destruct (ser data) as [bytes|] eqn:Es; [|destruct S as (x & S & _); congruence].
  destruct S as [S1 S2].
  assert (D : room s sub item \/ ~ room s sub item).
  { unfold room. destruct (mget sub (sp_annotations s)) as [a|]; [|auto].
    destruct (mget item a) as [b|]; lia. }
  destruct D as [D|D]; [|destruct (S2 D) as (x & S & _); congruence].
  destruct (S1 D) as (x & S & Hh & Hw' & Hv). rewrite E in S. injection S as <- ->.
  split; [|split; [|split; [split|split; [exact Hh|exact Hw']]]].
  - unfold suppl_get. specialize (Hv (sub, item, name)). rewrite keqb_refl in Hv. unfold view in Hv. cbn [fst snd] in Hv.
    rewrite Hv. cbn. f_equal. apply Hr. exact Es.
  - intros k Nk. rewrite Hv. apply keqb_neq in Nk. rewrite Nk. reflexivity.
  - unfold view. cbn [fst snd]. destruct (annotation s sub item name); [eauto|discriminate].
  - unfold view. cbn [fst snd]. intros (b & ->). reflexivity.
Qed.

(** It succeeds exactly if the value can be encoded and there is room; it never
    panics. *)
Theorem C20_annotate_succeeds_iff : forall T (ser : T -> option blob) sub item name data s,
  suppl_wf s ->
  ((exists s' prev, annotate ser sub item name data s = (s', Ok prev)) <->
   (exists bytes, ser data = Some bytes) /\ room s sub item) /\
  snd (annotate ser sub item name data s) <> Panic.
Proof.
  intros T ser sub item name data s Hw.
  pose proof (annotate_spec ser sub item name data s Hw) as S.
  assert (D : room s sub item \/ ~ room s sub item).
  { unfold room. destruct (mget sub (sp_annotations s)) as [a|]; [|auto].
    destruct (mget item a) as [b|]; lia. }
  destruct (ser data) as [bytes|].
  - destruct S as [S1 S2]. destruct D as [D|D].
    + destruct (S1 D) as (x & S & _). rewrite S. split; [|discriminate]. split; [eauto|]. intros _. eauto.
    + destruct (S2 D) as (x & S & _). rewrite S. split; [|discriminate]. split; [|tauto].
      intros (s' & p & E). congruence.
  - destruct S as (x & S & _). rewrite S. split; [|discriminate]. split.
    + intros (s' & p & E). congruence.
    + intros [(b & E) _]. discriminate.
Qed.

(** The full property: a failed write changes nothing. *)
Definition failed_annotate_changes_nothing {T} (ser : T -> option blob) : Prop :=
  forall sub item name data s s' e, suppl_wf s ->
  annotate ser sub item name data s = (s', Err e) -> forall k, view s' k = view s k.

(** It does not hold: all annotations of the same subject are lost, ... *)
Theorem C20_failed_annotate_partial : forall T (ser : T -> option blob) sub item name data s s' e,
  suppl_wf s -> annotate ser sub item name data s = (s', Err e) ->
  same_header s s' /\
  forall k, view s' k = if keqb (fst (fst k)) sub then None else view s k.
Proof.
  intros T ser sub item name data s s' e Hw E.
  pose proof (annotate_spec ser sub item name data s Hw) as S.
  assert (D : room s sub item \/ ~ room s sub item).
  { unfold room. destruct (mget sub (sp_annotations s)) as [a|]; [|auto].
    destruct (mget item a) as [b|]; lia. }
  destruct (ser data) as [bytes|].
  - destruct S as [S1 S2]. destruct D as [D|D].
    + destruct (S1 D) as (x & S & _). congruence.
    + destruct (S2 D) as (x & S & Hh & _ & Hv). rewrite E in S. injection S as <- _. auto.
  - destruct S as (x & S & Hh & _ & Hv). rewrite E in S. injection S as <- _. auto.
Qed.

(** ... whichever encoder that can fail on some value and succeed on another. *)
Definition ex_suppl (bytes : blob) : Supplement :=
  set_annotations (supplement_new (TagSchema, 1) 2 0%Z) [(SubItself, [(ItDefault, [(lit "Note"%string, bytes)])])].

Lemma ex_suppl_wf bytes : suppl_wf (ex_suppl bytes).
Proof.
  split; [repeat constructor|]. intros sub a. cbn. destruct (keqb sub SubItself); [|discriminate].
  intros [= <-]. split; [repeat constructor|]. split; [cbv; discriminate|].
  intros item b. cbn. destruct (keqb item ItDefault); [|discriminate]. intros [= <-].
  split; [repeat constructor|cbv; discriminate].
Qed.

Theorem C20_failed_annotate_refuted : forall T (ser : T -> option blob) bad,
  ser bad = None -> ~ failed_annotate_changes_nothing ser.
Proof.
  intros T ser bad Eb F.
  specialize (F SubItself (ItTypeNo 1) [] bad (ex_suppl [7])).
  unfold annotate in F. rewrite Eb in F.
  specialize (F _ _ (ex_suppl_wf [7]) eq_refl (SubItself, ItDefault, lit "Note"%string)).
  discriminate F.
Qed.

(** Defaults are the annotations of the default item *)
Theorem C20_defaults : forall T (ser : T -> option blob) (de : blob -> option T) sub name data s,
  annotate_default ser sub name data s = annotate ser sub ItDefault name data s /\
  annotate_itself ser name data s = annotate ser SubItself ItDefault name data s /\
  suppl_get_default de s sub name = suppl_get de s sub ItDefault name /\
  (suppl_get_default_opt de s sub name = Some data <-> suppl_get de s sub ItDefault name = Some (Some data)).
Proof.
  intros. repeat split.
  - unfold suppl_get_default_opt, suppl_get_default. destruct (suppl_get de s sub ItDefault name) as [[t|]|]; congruence.
  - unfold suppl_get_default_opt, suppl_get_default. intros ->. reflexivity.
Qed.

(** Nothing is annotated in a new supplement *)
Theorem C20_new : forall content creator now,
  suppl_wf (supplement_new content creator now) /\
  (forall k, view (supplement_new content creator now) k = None) /\
  sp_content (supplement_new content creator now) = content /\
  sp_creator (supplement_new content creator now) = creator.
Proof. intros. repeat split; try constructor; discriminate. Qed.

Example C20_witness :
  let ser (n : N) := if n <? 256 then Some [n] else None in
  let de b := match b with [n] => Some n | _ => None end in
  reads_back ser de /\ suppl_wf (ex_suppl [7]) /\
  (exists s', annotate ser SubItself (ItTypeNo 3) (lit "Other"%string) 9 (ex_suppl [7]) = (s', Ok false) /\
     view s' (SubItself, ItDefault, lit "Note"%string) = Some [7] /\
     view s' (SubItself, ItTypeNo 3, lit "Other"%string) = Some [9]) /\
  (exists s', annotate ser SubItself (ItTypeNo 3) (lit "Other"%string) 999 (ex_suppl [7]) = (s', Err SerEncode) /\
     view s' (SubItself, ItDefault, lit "Note"%string) = None).
Proof.
  split.
  - intros t b. destruct (N.ltb_spec t 256); [|discriminate]. intros [= <-]. reflexivity.
  - split; [apply ex_suppl_wf|]. split; eexists; (split; [reflexivity|]); [split|]; reflexivity.
Qed.

Print Assumptions C20_annotate_ok.
Print Assumptions C20_annotate_succeeds_iff.
Print Assumptions C20_failed_annotate_partial.
Print Assumptions C20_failed_annotate_refuted.
Print Assumptions C20_defaults.
Print Assumptions C20_new.

(** ** C21 *)
(** Loading accepts exactly the files starting with the prefix, the magic of the kind
    and the encoding of the value it returns. *)
Theorem C21_load_exact : forall A (C : Codec A) k data a, codec_ok C ->
  (file_load C k data = Ok a <->
   exists bytes rest, enc C a = Some bytes /\ data = RGB_PREFIX ++ magic k ++ bytes ++ rest).
Proof.
  intros A C k data a [Hd Hs]. unfold file_load.
  destruct (header_read data) as [(p & m & r & -> & Lp & Lm & E1 & E2)|[L Hn]].
  - rewrite E1. cbn [ok_or rbind]. rewrite E2. cbn [ok_or rbind].
    destruct (bytes_eqb p RGB_PREFIX) eqn:Ep; cbn [negb orb].
    + apply bytes_eqb_eq in Ep. subst p. destruct (bytes_eqb m (magic k)) eqn:Em; cbn [negb].
      * apply bytes_eqb_eq in Em. subst m. split.
        -- destruct (dec C r) as [[me rest]|] eqn:E; cbn; [|discriminate]. intros [= <-].
           apply Hs in E as (bytes & Ee & ->). exists bytes, rest. auto.
        -- intros (bytes & rest & Ee & E). apply app_inv_head, app_inv_head in E. subst r.
           rewrite (Hd _ _ _ Ee). reflexivity.
      * split; [discriminate|]. intros (bytes & rest & _ & E). apply app_inv_head in E.
        apply app_len_inj in E as [-> _]; [rewrite bytes_eqb_refl in Em; discriminate|].
        rewrite magic_length. exact Lm.
    + split; [discriminate|]. intros (bytes & rest & _ & E).
      apply app_len_inj in E as [-> _]; [rewrite bytes_eqb_refl in Ep; discriminate|]. rewrite Lp. reflexivity.
  - split.
    + destruct (read_exact 4 data) as [[p d]|]; cbn; [|discriminate]. rewrite Hn. cbn. discriminate.
    + intros (bytes & rest & _ & ->). rewrite !app_length, magic_length in L. cbn in L. lia.
Qed.

(** Saved files load, whatever follows them. *)
Theorem C21_round_trip : forall A (C : Codec A) k a data rest, codec_ok C ->
  file_save C k a = Some data -> file_load C k (data ++ rest) = Ok a.
Proof.
  intros A C k a data rest Hc. unfold file_save. destruct (enc C a) as [bytes|] eqn:E; [|discriminate].
  intros Es. apply Some_inj in Es. subst data. apply C21_load_exact; [exact Hc|]. exists bytes, rest. split; [exact E|].
  rewrite <- !app_assoc. reflexivity.
Qed.

(** Files of another kind and damaged headers are rejected as such, short files too,
    and loading never panics. *)
Theorem C21_header : forall A (C : Codec A) k data,
  file_load C k data <> Panic /\
  ((length data < 7)%nat -> file_load C k data = Err LoadDecode) /\
  ((7 <= length data)%nat -> firstn 7 data <> RGB_PREFIX ++ magic k -> file_load C k data = Err InvalidMagic).
Proof.
  intros A C k data. unfold file_load.
  destruct (header_read data) as [(p & m & r & -> & Lp & Lm & E1 & E2)|[L Hn]].
  - rewrite E1. cbn [ok_or rbind]. rewrite E2. cbn [ok_or rbind]. split; [|split].
    + destruct (_ || _)%bool; [discriminate|]. destruct (dec C r) as [[]|]; discriminate.
    + rewrite !app_length. lia.
    + intros _ Hf. assert (F : firstn 7 (p ++ m ++ r) = p ++ m).
      { rewrite app_assoc. replace 7%nat with (length (p ++ m)) by (rewrite app_length; lia).
        rewrite firstn_app, Nat.sub_diag, firstn_all, firstn_O, app_nil_r. reflexivity. }
      rewrite F in Hf. destruct (bytes_eqb p RGB_PREFIX) eqn:Ep; [|reflexivity].
      destruct (bytes_eqb m (magic k)) eqn:Em; [|reflexivity].
      apply bytes_eqb_eq in Ep, Em. subst. contradiction.
  - split; [|split].
    + destruct (read_exact 4 data) as [[p d]|]; cbn; [|discriminate]. rewrite Hn. discriminate.
    + intros _. destruct (read_exact 4 data) as [[p d]|]; cbn; [|reflexivity]. rewrite Hn. reflexivity.
    + lia.
Qed.

Theorem C21_other_kind : forall A B (C : Codec A) (D : Codec B) k k' a data rest,
  file_save C k a = Some data -> k <> k' -> file_load D k' (data ++ rest) = Err InvalidMagic.
Proof.
  intros A B C D k k' a data rest E Nk. unfold file_save in E. destruct (enc C a) as [bytes|]; [|discriminate].
  apply Some_inj in E. subst data. apply C21_header.
  - rewrite !app_length, magic_length. cbn. lia.
  - rewrite <- !app_assoc, app_assoc.
    replace 7%nat with (length (RGB_PREFIX ++ magic k)) by (rewrite app_length, magic_length; reflexivity).
    rewrite firstn_app, Nat.sub_diag, firstn_all, firstn_O, app_nil_r.
    intros E. apply app_inv_head, magic_inj in E. contradiction.
Qed.

(** A truncated file is rejected wherever it is cut. *)
Theorem C21_truncated : forall A (C : Codec A) k a data p q, codec_ok C ->
  file_save C k a = Some data -> data = p ++ q -> q <> [] -> exists e, file_load C k p = Err e.
Proof.
  intros A C k a data p q Hc Es -> Hq.
  destruct (file_load C k p) as [a'|e|] eqn:E; [|eauto|].
  - exfalso. apply C21_load_exact in E as (bytes' & rest & Ee & ->); [|exact Hc].
    unfold file_save in Es. destruct (enc C a) as [bytes|] eqn:Eb; [|discriminate]. apply Some_inj in Es. rename Es into E.
    rewrite <- !app_assoc in E. apply app_inv_head, app_inv_head in E.
    destruct Hc as [Hd _]. pose proof (Hd _ _ [] Eb) as D1. rewrite app_nil_r, E in D1.
    rewrite (Hd _ _ (rest ++ q) Ee) in D1. injection D1 as _ D1. apply app_eq_nil in D1 as [_ D1]. contradiction.
  - exfalso. apply (proj1 (C21_header A C k p)). exact E.
Qed.

(** A universal file loads as the kind it has, exactly as if loaded as that kind. *)
Theorem C21_universal_load : forall K C (CK : Codec K) (CC : Codec C) data u,
  universal_load CK CC data = Ok u <->
  match u with
  | UKit k => file_load CK FKit data = Ok k
  | UContract c => file_load CC FContract data = Ok c
  | UTransfer c => file_load CC FTransfer data = Ok c
  end.
Proof.
  intros K C CK CC data u. unfold universal_load, file_load.
  destruct (read_exact 4 data) as [[p d]|]; cbn [ok_or rbind]; [|destruct u; split; discriminate].
  destruct (read_exact 3 d) as [[m r]|]; cbn [ok_or rbind]; [|destruct u; split; discriminate].
  destruct (bytes_eqb p RGB_PREFIX); cbn [negb orb]; [|destruct u; split; discriminate].
  destruct (bytes_eqb m (magic FKit)) eqn:E1;
    [|destruct (bytes_eqb m (magic FContract)) eqn:E2;
      [|destruct (bytes_eqb m (magic FTransfer)) eqn:E3]];
    repeat match goal with H : bytes_eqb m _ = true |- _ => apply bytes_eqb_eq in H; subst m end.
  - destruct (dec CK r) as [[k rr]|]; cbn; destruct u; split; intros [=]; subst; reflexivity.
  - destruct (dec CC r) as [[k rr]|]; cbn; destruct u; split; intros [=]; subst; reflexivity.
  - destruct (dec CC r) as [[k rr]|]; cbn; destruct u; split; intros [=]; subst; reflexivity.
  - destruct u; split; discriminate.
Qed.

Theorem C21_universal_save : forall K C (CK : Codec K) (CC : Codec C) u,
  universal_save CK CC u =
  match u with
  | UKit k => file_save CK FKit k
  | UContract c => file_save CC FContract c
  | UTransfer c => file_save CC FTransfer c
  end.
Proof. intros K C CK CC []; reflexivity. Qed.

Theorem C21_universal_round_trip : forall K C (CK : Codec K) (CC : Codec C) u data rest,
  codec_ok CK -> codec_ok CC ->
  universal_save CK CC u = Some data -> universal_load CK CC (data ++ rest) = Ok u.
Proof.
  intros K C CK CC u data rest Hk Hc E. apply C21_universal_load. rewrite C21_universal_save in E.
  destruct u; eapply C21_round_trip; eassumption.
Qed.

(** Reading an armored consignment accepts only the kind asked for ... *)
Theorem C21_armored_kind : forall armor t s c,
  consignment_from_str armor t s = Ok c <-> armor s = Some c /\ c_transfer c = t.
Proof.
  intros armor t s c. unfold consignment_from_str. destruct (armor s) as [c'|]; cbn [ok_or rbind].
  - destruct (eqb (c_transfer c') t) eqn:E.
    + apply eqb_prop in E. split; [intros [= <-]; auto|intros [[= <-] _]; reflexivity].
    + split; [discriminate|]. intros [[= <-] <-]. rewrite eqb_reflx in E. discriminate.
  - split; [discriminate|]. intros [[=] _].
Qed.

(** ... but loading a file trusts the magic: a contract file may contain a consignment
    which says it is a transfer. *)
Theorem C21_file_kind_refuted : exists (C : Codec Consignment) data c, codec_ok C /\
  file_load C FContract data = Ok c /\ c_transfer c = true.
Proof.
  assert (Dec : forall a b : Consignment, {a = b} + {a <> b}) by (repeat decide equality).
  set (g := {| op_kind := OpGenesis; op_head := 0; op_contract := 0; op_ty := 0; op_nonce := 0; op_meta := [];
     op_globals := []; op_inputs := []; op_redeemed := []; op_assigns := []; op_valencies := [] |}).
  set (c0 := {| c_transfer := true; c_terminals := []; c_genesis := g; c_extensions := [];
        c_bundles := []; c_schema := {| sch_id := 0; sch_globals := []; sch_libs := []; sch_types := [] |};
        c_ifaces := []; c_supplements := []; c_types := []; c_scripts := []; c_attachments := [];
        c_signatures := [] |}).
  set (C := {| enc := fun c => if Dec c c0 then Some [5] else None;
               dec := fun d => match d with 5 :: r => Some (c0, r) | _ => None end |}).
  exists C, (RGB_PREFIX ++ magic FContract ++ [5]), c0. split; [|split; reflexivity].
  split; cbn [enc dec C].
  - intros a bytes rest. destruct (Dec a c0) as [->|]; [|discriminate]. intros [= <-]. reflexivity.
  - intros data a rest. destruct (N.eq_dec (hd 0 data) 5) as [E|E].
    + destruct data as [|x d]; cbn in E; subst; [discriminate|]. intros [= <- <-]. exists [5].
      destruct (Dec c0 c0); [auto|contradiction].
    + destruct data as [|x d]; [discriminate|]. cbn in E.
      destruct x as [|[[[]|[]|]|[[]|[]|]|]]; try discriminate. exfalso. apply E. reflexivity.
Qed.

Example C21_witness :
  let C := {| enc := fun l : list N => Some (len l :: l);
              dec := fun d => match d with
                              | [] => None
                              | n :: d => if len d <? n then None
                                          else Some (firstn (N.to_nat n) d, skipn (N.to_nat n) d)
                              end |} in
  codec_ok C /\
  file_save C FKit [1; 2] = Some [82; 71; 66; 0; 75; 73; 84; 2; 1; 2] /\
  file_load C FKit [82; 71; 66; 0; 75; 73; 84; 2; 1; 2; 99] = Ok [1; 2] /\
  file_load C FContract [82; 71; 66; 0; 75; 73; 84; 2; 1; 2] = Err InvalidMagic.
Proof.
  split; [|repeat split]. split; cbn [enc dec].
  - intros a bytes rest [= <-]. cbn [app]. unfold len. rewrite app_length, Nat2N.id.
    destruct (N.ltb_spec (N.of_nat (length a + length rest)) (N.of_nat (length a))); [lia|].
    rewrite firstn_app, Nat.sub_diag, firstn_all, firstn_O, app_nil_r, skipn_app, Nat.sub_diag, skipn_all. reflexivity.
  - intros [|n d] a rest; [discriminate|]. destruct (N.ltb_spec (len d) n); [discriminate|].
    intros [= <- <-]. eexists. split; [reflexivity|]. unfold len in *.
    rewrite firstn_length_le by lia. rewrite N2Nat.id. cbn [app]. rewrite firstn_skipn. reflexivity.
Qed.

Print Assumptions C21_load_exact.
Print Assumptions C21_round_trip.
Print Assumptions C21_header.
Print Assumptions C21_other_kind.
Print Assumptions C21_truncated.
Print Assumptions C21_universal_load.
Print Assumptions C21_universal_save.
Print Assumptions C21_universal_round_trip.
Print Assumptions C21_armored_kind.
Print Assumptions C21_file_kind_refuted.

(** ** C22 *)
(** The derived order is the one in which the levels are listed ... *)
Theorem C22_order : forall a b, trust_le a b = true <-> a = b \/ trust_below a b.
Proof.
  intros a b. split.
  - unfold trust_below, trust_order.
    destruct a, b; try discriminate; intros _; auto; right;
    first [ (exists [], []; eexists; reflexivity) | (exists [], [Unknown]; eexists; reflexivity) | (exists [], [Unknown; Untrusted]; eexists; reflexivity) | (exists [], [Unknown; Untrusted; Trusted]; eexists; reflexivity)
          | (exists [Malicious], []; eexists; reflexivity) | (exists [Malicious], [Untrusted]; eexists; reflexivity) | (exists [Malicious], [Untrusted; Trusted]; eexists; reflexivity)
          | (exists [Malicious; Unknown], []; eexists; reflexivity) | (exists [Malicious; Unknown], [Trusted]; eexists; reflexivity)
          | (exists [Malicious; Unknown; Untrusted], []; eexists; reflexivity) ].
  - intros [->|(l & m & r & E)]; [destruct b; reflexivity|].
    unfold trust_order in E.
    assert (Hn : NoDup (map trust_value (l ++ a :: m ++ b :: r))) by (rewrite <- E; repeat constructor; cbn; intuition discriminate).
    assert (Hs : StronglySorted N.le (map trust_value (l ++ a :: m ++ b :: r))).
    { rewrite <- E. cbn. repeat constructor; discriminate. }
    rewrite map_app in Hs. cbn [map] in Hs. clear -Hs. induction (map trust_value l) as [|x y IH]; cbn in Hs.
    + apply StronglySorted_inv in Hs as [_ Hf]. rewrite Forall_forall in Hf. apply N.leb_le. apply Hf.
      rewrite map_app. apply in_or_app. right. left. reflexivity.
    + apply StronglySorted_inv in Hs as [Hs _]. auto.
Qed.

(** ... thresholds are upward closed ... *)
Theorem C22_upward_closed : forall f, In f [should_accept; should_use; must_use] ->
  forall a b, trust_below a b -> f a = true -> f b = true.
Proof.
  intros f Hf a b Hb. assert (Hle : trust_le a b = true) by (apply C22_order; auto).
  cbn in Hf. destruct Hf as [<-|[<-|[<-|[]]]]; destruct a, b; try discriminate Hle; intros E; try exact E; reflexivity.
Qed.

(** ... and nested; each starts where its name says. *)
Theorem C22_thresholds : forall t,
  (must_use t = true -> should_use t = true) /\ (should_use t = true -> should_accept t = true) /\
  (should_accept t = true <-> t <> Malicious) /\
  (should_use t = true <-> t = Trusted \/ t = Ultimate) /\
  (must_use t = true <-> t = Ultimate) /\
  should_accept trust_default = true /\ should_use trust_default = false.
Proof. intros []; repeat split; try discriminate; try congruence; auto; intros []; discriminate. Qed.

Example C22_witness : trust_below Untrusted Trusted /\ should_use Trusted = true /\ should_use Untrusted = false.
Proof. split; [exists [Malicious; Unknown], [], [Ultimate]; reflexivity|split; reflexivity]. Qed.

Print Assumptions C22_order.
Print Assumptions C22_upward_closed.
Print Assumptions C22_thresholds.

(** ** C56 *)
Theorem C56_velocity : forall v, v <= 255 ->
  let h := velocity_with_value v in
  v <= velocity_value h /\ forall h', v <= velocity_value h' -> velocity_value h <= velocity_value h'.
Proof.
  intros v Hv h. unfold h, velocity_with_value.
  destruct (N.eqb_spec v 0) as [->|]; [split; [cbv; discriminate|intros [] _; cbv; discriminate]|].
  destruct (N.leb_spec v 15); [split; [assumption|intros []; cbn [velocity_value]; lia]|].
  destruct (N.leb_spec v 31); [split; [assumption|intros []; cbn [velocity_value]; lia]|].
  destruct (N.leb_spec v 63); [split; [assumption|intros []; cbn [velocity_value]; lia]|].
  destruct (N.leb_spec v 127); [split; [assumption|intros []; cbn [velocity_value]; lia]|].
  split; [assumption|intros []; cbn [velocity_value]; lia].
Qed.

Theorem C56_velocity_round_trip : forall h, velocity_with_value (velocity_value h) = h.
Proof. intros []; reflexivity. Qed.

Example C56_witness : velocity_with_value 64 = VhFrequent /\ velocity_with_value 63 = VhRegular.
Proof. split; reflexivity. Qed.

Print Assumptions C56_velocity.
Print Assumptions C56_velocity_round_trip.
