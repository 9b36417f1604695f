(** * Armored texts: property theorems C69 *)
From Coq Require Import String.
From Verif Require Import Base Str Core Ser ContainerModel StashModel ArmorModel ArmorSpec.
Local Open Scope N_scope.

(** C69, writing: the headers of a consignment tell its kind, contract and schema, the names of
    its interfaces if there are any and the bundles of its terminals if there are any, each in
    one header, and nothing else. *)
Theorem C69_consignment : forall H T c,
  let l := cons_headers H T c in
  says l (lit "Version") [tx_version T] /\
  says l (lit "Type") [if c_transfer c then (lit "transfer") else (lit "contract")] /\
  says l (lit "Contract") [tx_contract T (op_id H (c_genesis c))] /\
  says l (lit "Schema") [tx_schema_long T (sch_id (c_schema c))] /\
  (c_ifaces c = [] -> silent l (lit "Interface")) /\
  (c_ifaces c <> [] -> says l (lit "Interface") (map (fun p => tx_name T (if_name (fst p))) (c_ifaces c))) /\
  (c_terminals c = [] -> silent l (lit "Terminal")) /\
  (c_terminals c <> [] -> says l (lit "Terminal") (map (fun p => tx_bundle T (fst p)) (c_terminals c))) /\
  forall h, In h l -> In (hd_title h) [lit "Version"; lit "Type"; lit "Contract"; lit "Schema"; lit "Interface"; lit "Terminal"].
Proof.
  change (lit "contract") with sContract. change (lit "transfer") with sTransfer. change (lit "Contract") with tContract. change (lit "Interface") with tIface. change (lit "Schema") with tSchema. change (lit "Terminal") with tTerminal. change (lit "Type") with tType. change (lit "Version") with tVersion.
  intros H T c l. subst l. unfold cons_headers, says, silent.
  assert (Ek : map (tx_bundle T) (mkeys (c_terminals c)) = map (fun p => tx_bundle T (fst p)) (c_terminals c))
    by (unfold mkeys; rewrite map_map; reflexivity).
  rewrite <- Ek. clear Ek.
  destruct (c_ifaces c) as [|p ps], (c_terminals c) as [|q qs]; cbn [app map];
  (repeat split; try reflexivity; try (intros X; exfalso; apply X; reflexivity); try discriminate;
   intros h Hh; repeat (destruct Hh as [<-|Hh]; [cbn [hd_title header header_with In]; tauto|]); destruct Hh).
Qed.

Lemma suppl_param_note T l ct h : exists o, shown_note l ct o /\
  suppl_param T l ct h = {| hd_title := hd_title h; hd_values := hd_values h; hd_params := hd_params h ++ note_param T o |}.
Proof.
  unfold suppl_param. exists (find (fun s => keqb (su_content s) ct) l). split.
  - induction l as [|s l IH]; cbn [find]; [intros x []|]. destruct (keqb (su_content s) ct) eqn:E.
    + exists [], l. split; [reflexivity|]. split; [apply keqb_true, E|intros x []].
    + apply keqb_false in E. destruct (find _ l) as [s'|].
      * destruct IH as (b & a & -> & Es & Hb). exists (s :: b), a. split; [reflexivity|]. split; [exact Es|].
        intros x [<-|Hx]; [exact E|exact (Hb x Hx)].
      * intros x [<-|Hx]; [exact E|exact (IH x Hx)].
  - destruct (find _ l); [reflexivity|]. cbn [note_param]. rewrite app_nil_r. destruct h; reflexivity.
Qed.

Lemma shown_note_unique l ct o o' : shown_note l ct o -> shown_note l ct o' -> o = o'.
Proof.
  revert o o'. assert (X : forall s o', shown_note l ct (Some s) -> shown_note l ct o' -> Some s = o').
  { intros s [s'|] (b & a & E & Es & Hb).
    - intros (b' & a' & E' & Es' & Hb'). f_equal. rewrite E in E'. clear E. revert b' Hb' E'. induction b as [|x b IH]; intros [|y b'] Hb' E'; cbn in E'.
      + injection E' as -> _. reflexivity.
      + injection E' as -> _. exfalso. apply (Hb' y); [left; reflexivity|exact Es].
      + injection E' as -> _. exfalso. apply (Hb s'); [left; reflexivity|exact Es'].
      + injection E' as _ E'. apply (IH (fun z Hz => Hb z (or_intror Hz)) b'); [intros z Hz; apply Hb'; right; exact Hz|exact E'].
    - intros N. exfalso. apply (N s); [rewrite E; apply in_or_app; right; left; reflexivity|exact Es]. }
  intros [s|] [s'|] A B; try reflexivity; try (apply X; assumption). symmetry. apply X; assumption.
Qed.

Lemma titled_app t a b : titled t (a ++ b) = titled t a ++ titled t b.
Proof. apply filter_app. Qed.
Lemma streqb_true a b : streqb a b = true <-> a = b.
Proof. unfold streqb. destruct (list_eq_dec _ a b); split; intros; congruence. Qed.
Lemma titled_map {A} t (f : A -> Header) l u : (forall x, hd_title (f x) = u) ->
  titled t (map f l) = if streqb u t then map f l else [].
Proof.
  intros E. induction l as [|x l IH]; cbn; [destruct (streqb u t); reflexivity|]. rewrite E.
  unfold titled in IH. destruct (streqb u t); [f_equal|]; exact IH.
Qed.
Lemma suppl_title T l ct h : hd_title (suppl_param T l ct h) = hd_title h.
Proof. destruct (suppl_param_note T l ct h) as (o & _ & ->). reflexivity. Qed.

(** The headers of a kit tell every schema, interface and implementation in it with its id, its
    developer and the first annotation of it in the kit, an implementation also with what it
    implements; the types and every library; and nothing else. *)
Theorem C69_kit : forall T k,
  let l := kit_headers T k in
  says l (lit "Version") [tx_version T] /\ says l (lit "Type-System") [tx_types T (k_types k)] /\
  Forall2 (fun s h => exists o, shown_note (k_suppl k) (TagSchema, sch_id s) o /\
     h = {| hd_title := lit "Schema"; hd_values := [tx_schema_name T s];
            hd_params := [(lit "id", tx_schema T (sch_id s)); (lit "dev", tx_schema_dev T s)] ++ note_param T o |})
    (k_schemata k) (titled (lit "Schema") l) /\
  Forall2 (fun i h => exists o, shown_note (k_suppl k) (TagIface, if_id i) o /\
     h = {| hd_title := lit "Interface"; hd_values := [tx_name T (if_name i)];
            hd_params := [(lit "id", tx_iface T (if_id i)); (lit "dev", tx_iface_dev T i)] ++ note_param T o |})
    (k_ifaces k) (titled (lit "Interface") l) /\
  Forall2 (fun i h => exists o, shown_note (k_suppl k) (TagIfaceImpl, im_id i) o /\
     h = {| hd_title := lit "Implementation"; hd_values := [tx_impl T (im_id i)];
            hd_params := [(lit "interface", tx_iface T (im_iface i)); (lit "schema", tx_schema T (im_schema i)); (lit "dev", tx_impl_dev T i)] ++ note_param T o |})
    (k_impls k) (titled (lit "Implementation") l) /\
  Forall2 (fun p h => h = {| hd_title := lit "Alu-Lib"; hd_values := [tx_lib T (fst p)]; hd_params := [] |}) (k_scripts k) (titled (lit "Alu-Lib") l) /\
  forall h, In h l -> In (hd_title h) [lit "Version"; lit "Schema"; lit "Interface"; lit "Implementation"; lit "Type-System"; lit "Alu-Lib"].
Proof.
  change (lit "dev") with sDev. change (lit "id") with sId. change (lit "interface") with sInterface. change (lit "schema") with sSchemaP. change (lit "Interface") with tIface. change (lit "Implementation") with tImpl. change (lit "Schema") with tSchema. change (lit "Alu-Lib") with tScript. change (lit "Type-System") with tTypes. change (lit "Version") with tVersion.
  intros T k l.
  assert (T1 : forall x, hd_title (schema_header T k x) = tSchema) by (intros; unfold schema_header; rewrite suppl_title; reflexivity).
  assert (T2 : forall x, hd_title (iface_header T k x) = tIface) by (intros; unfold iface_header; rewrite suppl_title; reflexivity).
  assert (T3 : forall x, hd_title (impl_header T k x) = tImpl) by (intros; unfold impl_header; rewrite suppl_title; reflexivity).
  assert (T4 : forall id, hd_title (header tScript (tx_lib T id)) = tScript) by reflexivity.
  assert (S : forall t, titled t l = titled t [header tVersion (tx_version T)] ++ (if streqb tSchema t then map (schema_header T k) (k_schemata k) else []) ++
    (if streqb tIface t then map (iface_header T k) (k_ifaces k) else []) ++ (if streqb tImpl t then map (impl_header T k) (k_impls k) else []) ++
    titled t [header tTypes (tx_types T (k_types k))] ++ (if streqb tScript t then map (fun id => header tScript (tx_lib T id)) (mkeys (k_scripts k)) else [])).
  { intros t. subst l. unfold kit_headers. rewrite !titled_app. rewrite (titled_map t _ _ _ T1), (titled_map t _ _ _ T2), (titled_map t _ _ _ T3), (titled_map t _ _ _ T4). reflexivity. }
  assert (F : forall A (f : A -> Header) (P : A -> Header -> Prop) ls, (forall x, P x (f x)) -> Forall2 P ls (map f ls))
    by (intros A f P ls Hp; induction ls; cbn; constructor; auto).
  unfold says. rewrite !S. repeat split; try reflexivity.
  - cbn -[schema_header]. rewrite !app_nil_r. apply F. intros x. unfold schema_header.
    destruct (suppl_param_note T (k_suppl k) (TagSchema, sch_id x) (add_param (add_param (header tSchema (tx_schema_name T x)) sId (tx_schema T (sch_id x))) sDev (tx_schema_dev T x))) as (o & Ho & ->).
    exists o. split; [exact Ho|reflexivity].
  - cbn -[iface_header]. rewrite !app_nil_r. apply F. intros x. unfold iface_header.
    destruct (suppl_param_note T (k_suppl k) (TagIface, if_id x) (add_param (add_param (header tIface (tx_name T (if_name x))) sId (tx_iface T (if_id x))) sDev (tx_iface_dev T x))) as (o & Ho & ->).
    exists o. split; [exact Ho|reflexivity].
  - cbn -[impl_header]. rewrite !app_nil_r. apply F. intros x. unfold impl_header.
    destruct (suppl_param_note T (k_suppl k) (TagIfaceImpl, im_id x) (add_param (add_param (add_param (header tImpl (tx_impl T (im_id x))) sInterface (tx_iface T (im_iface x))) sSchemaP (tx_schema T (im_schema x))) sDev (tx_impl_dev T x))) as (o & Ho & ->).
    exists o. split; [exact Ho|reflexivity].
  - cbn. unfold mkeys. rewrite map_map. apply F. reflexivity.
  - intros h Hh. subst l. unfold kit_headers in Hh. rewrite !in_app_iff, !in_map_iff in Hh. cbn [In] in *.
    destruct Hh as [[<-|[]]|[(x & <- & _)|[(x & <- & _)|[(x & <- & _)|[[<-|[]]|(x & <- & _)]]]]];
      rewrite ?T1, ?T2, ?T3; cbn [hd_title header]; tauto.
Qed.

(** C69, reading: a text is read as a consignment of the kind asked for exactly if it contains
    one; loading an armored file does not look at the kind. It panics only for a transfer with a
    type header without value. *)
Definition empty_type (hs : list Header) : Prop :=
  exists before h after, hs = before ++ h :: after /\ titled tType before = [] /\ hd_title h = tType /\ hd_values h = [].
Lemma parse_headers_panic c hs : parse_headers c hs = if c_transfer c then match find (fun h => streqb (hd_title h) tType) hs with
  Some h => match hd_values h with [] => Panic | _ => Ok tt end | None => Ok tt end else Ok tt.
Proof.
  unfold parse_headers. destruct (find _ hs) as [h|]; [|destruct (c_transfer c); reflexivity]. destruct (c_transfer c); cbn [andb]; [|reflexivity].
  destruct (hd_values h) as [|v [|v' l]]; cbn [len]; [reflexivity|reflexivity|]. replace (len (v :: v' :: l) =? 1) with false.
  - cbn [negb]. destruct (streqb v sTransfer); reflexivity.
  - symmetry. apply N.eqb_neq. unfold len. cbn [List.length]. lia.
Qed.
Lemma empty_type_iff hs : empty_type hs <-> exists h, find (fun h => streqb (hd_title h) tType) hs = Some h /\ hd_values h = [].
Proof.
  split.
  - intros (b & h & a & -> & Hb & Et & Ev). exists h. split; [|exact Ev]. induction b as [|x b IH]; unfold titled in *; cbn [filter find app] in *.
    + rewrite Et. replace (streqb tType tType) with true by reflexivity. reflexivity.
    + revert Hb. destruct (streqb (hd_title x) tType); [intros X; discriminate X|exact IH].
  - intros (h & Hf & Ev). induction hs as [|x hs IH]; cbn [find] in Hf; [discriminate|]. destruct (streqb (hd_title x) tType) eqn:E.
    + injection Hf as ->. exists [], h, hs. split; [reflexivity|]. split; [reflexivity|]. split; [apply streqb_true, E|exact Ev].
    + destruct (IH Hf) as (b & h' & a & -> & Hb & R). exists (x :: b), h', a. split; [reflexivity|]. split; [|exact R]. unfold titled in *. cbn [filter]. rewrite E. exact Hb.
Qed.

Theorem C69_load : forall R s c,
  (cons_from_armored R s = Ok c <-> exists hs, ar_read R s = Some (hs, c) /\ ~ (c_transfer c = true /\ empty_type hs)) /\
  (cons_from_armored R s = Panic <-> exists hs c, ar_read R s = Some (hs, c) /\ c_transfer c = true /\ empty_type hs).
Proof.
  intros R s c. unfold cons_from_armored. destruct (ar_read R s) as [[hs c1]|]; cbn [ok_or rbind].
  2: { split; split; try discriminate; [intros (hs & X & _)|intros (hs & c0 & X & _)]; discriminate X. }
  rewrite parse_headers_panic. pose proof (empty_type_iff hs) as Ei. destruct (c_transfer c1) eqn:Et.
  - destruct (find _ hs) as [h|] eqn:Ef; [destruct (hd_values h) as [|v vs] eqn:Ev|].
    + assert (Ee : empty_type hs) by (apply Ei; eauto). split; split.
      * discriminate.
      * intros (hs' & [= <- <-] & Hn). exfalso. apply Hn. auto.
      * intros _. exists hs, c1. auto.
      * reflexivity.
    + assert (Ee : ~ empty_type hs) by (rewrite Ei; intros (h' & [= <-] & X); congruence). split; split.
      * intros [= <-]. exists hs. split; [reflexivity|tauto].
      * intros (hs' & [= <- <-] & _). reflexivity.
      * discriminate.
      * intros (hs' & c' & [= <- <-] & _ & X). contradiction.
    + assert (Ee : ~ empty_type hs) by (rewrite Ei; intros (h' & X & _); congruence). split; split.
      * intros [= <-]. exists hs. split; [reflexivity|tauto].
      * intros (hs' & [= <- <-] & _). reflexivity.
      * discriminate.
      * intros (hs' & c' & [= <- <-] & _ & X). contradiction.
  - split; split.
    + intros [= <-]. exists hs. split; [reflexivity|]. rewrite Et. intros [X _]; discriminate X.
    + intros (hs' & [= <- <-] & _). reflexivity.
    + discriminate.
    + intros (hs' & c' & [= <- <-] & X & _). congruence.
Qed.

Theorem C69_read : forall R t s c, armor_values R ->
  (cons_from_str R t s = Ok c <-> (exists hs, ar_read R s = Some (hs, c)) /\ c_transfer c = t) /\ cons_from_str R t s <> Panic.
Proof.
  intros R t s c Hv. unfold cons_from_str.
  assert (Ne : forall hs a, ar_read R s = Some (hs, a) -> ~ empty_type hs).
  { intros hs a E (b & h & af & -> & _ & _ & Ev). apply (Hv _ _ _ h E); [apply in_or_app; right; left; reflexivity|exact Ev]. }
  destruct (cons_from_armored R s) as [c1|e|] eqn:E; cbn [rbind].
  - apply (proj1 (C69_load R s c1)) in E. destruct E as (hs & Er & _). rewrite Er. destruct (Bool.eqb (c_transfer c1) t) eqn:Et.
    + apply Bool.eqb_prop in Et. split; [|discriminate]. split; [intros [= <-]; split; [eauto|exact Et]|]. intros [(hs' & [= <- <-]) _]. reflexivity.
    + split; [|discriminate]. split; [discriminate|]. intros [(hs' & [= <- <-]) <-]. rewrite Bool.eqb_reflx in Et. discriminate.
  - split; [|discriminate]. split; [discriminate|]. intros [(hs & Er) _]. exfalso.
    assert (X : cons_from_armored R s = Ok c) by (apply C69_load; exists hs; split; [exact Er|]; intros [_ Y]; exact (Ne _ _ Er Y)). congruence.
  - exfalso. apply (proj2 (C69_load R s c)) in E. destruct E as (hs & c0 & Er & _ & Y). exact (Ne _ _ Er Y).
Qed.

(** Reading back what was written gives the same container, for the right kind only. *)
Theorem C69_round_trip : forall R H T t c, reads_back R (cons_headers H T c) c ->
  cons_from_armored R (cons_to_armored R H T c) = Ok c /\
  cons_from_str R t (cons_to_armored R H T c) = if Bool.eqb (c_transfer c) t then Ok c else Err ReadType.
Proof.
  intros R H T t c (more & Er & Em).
  assert (X : cons_from_armored R (cons_to_armored R H T c) = Ok c).
  { apply C69_load. exists (more ++ cons_headers H T c). split; [exact Er|]. intros (_ & Ee). apply empty_type_iff in Ee. destruct Ee as (h & Hf & Ev).
    assert (Y : find (fun h => streqb (hd_title h) tType) (more ++ cons_headers H T c) = Some (header tType (if c_transfer c then sTransfer else sContract))).
    { clear -Em. induction more as [|x m IH]; cbn [app find]; [reflexivity|]. unfold titled in *. cbn [filter] in Em. revert Em. destruct (streqb (hd_title x) tType); [intros X; discriminate X|exact IH]. }
    rewrite Y in Hf. injection Hf as <-. discriminate Ev. }
  split; [exact X|]. unfold cons_from_str. rewrite X. reflexivity.
Qed.
Theorem C69_kit_round_trip : forall R T k, reads_back R (kit_headers T k) k -> kit_from_str R (kit_to_armored R T k) = Ok k.
Proof.
  intros R T k (more & Er & _). unfold kit_from_str, kit_to_armored. rewrite Er. reflexivity.
Qed.

(** But headers are not compared with what follows them: a text which calls itself a transfer of
    one contract may be read as a contract, and as another one; and loading a file with the kind
    in mind does not help. *)
Section Toy.
Context (H : Hashes) (T : Texts) (c : Consignment).
(** An armor which knows three texts: with the headers of [c], with other headers, none *)
Definition toy_armor (hs : list Header) : Armor Consignment :=
  {| ar_write := fun _ _ => lit "armored"%string; ar_read := fun s => if streqb s (lit "armored"%string) then Some (hs, c) else None |}.
End Toy.
Definition ar_cons (transfer : bool) : Consignment :=
  {| c_transfer := transfer; c_terminals := [(3, 4)];
     c_genesis := {| op_kind := OpGenesis; op_head := 0; op_contract := 1; op_ty := 5; op_nonce := 0; op_meta := []; op_globals := [];
       op_inputs := []; op_redeemed := []; op_assigns := []; op_valencies := [] |};
     c_extensions := []; c_bundles := []; c_schema := {| sch_id := 5; sch_globals := []; sch_libs := []; sch_types := [] |};
     c_ifaces := [({| if_id := 3; if_name := 30; if_inherits := []; if_types := [] |}, {| im_id := 1; im_schema := 5; im_iface := 3 |})];
     c_supplements := []; c_types := []; c_scripts := []; c_attachments := []; c_signatures := [] |}.
Definition ar_texts : Texts :=
  let num n := repeat (Ascii.ascii_of_nat 49) (N.to_nat n) in
  {| tx_version := lit "0"%string; tx_contract := fun _ => lit "contract"%string; tx_schema_long := num; tx_schema := num; tx_iface := num;
     tx_impl := num; tx_suppl := fun s => num (su_data s); tx_bundle := num; tx_types := fun _ => []; tx_lib := num; tx_name := num;
     tx_schema_name := fun _ => lit "S"%string; tx_schema_dev := fun _ => []; tx_iface_dev := fun _ => []; tx_impl_dev := fun _ => [] |}.
Lemma toy_values c hs : Forall (fun h => hd_values h <> []) hs -> armor_values (toy_armor c hs).
Proof.
  intros F s hs' a h. cbn. destruct (streqb s _); [|discriminate]. intros [= <- <-] Hh. rewrite Forall_forall in F. exact (F h Hh).
Qed.

Theorem C69_headers_refuted : ~ forall R H T s c, armor_values R -> cons_from_str R (c_transfer c) s = Ok c ->
  exists hs, ar_read R s = Some (hs, c) /\ forall t, titled t hs <> [] -> titled t hs = titled t (cons_headers H T c).
Proof.
  intros Bad.
  destruct (Bad (toy_armor (ar_cons false) [header tType sTransfer]) bit_hashes ar_texts (lit "armored"%string) (ar_cons false)) as (hs & E & X).
  - apply toy_values. repeat constructor. discriminate.
  - vm_compute. reflexivity.
  - injection E as <-. specialize (X tType ltac:(discriminate)). vm_compute in X. discriminate X.
Qed.
Theorem C69_file_kind_refuted : ~ forall R t s c, armor_values R -> cons_load_armored R t s = Ok c -> c_transfer c = t.
Proof.
  intros Bad.
  specialize (Bad (toy_armor (ar_cons false) [header tType sContract]) true (lit "armored"%string) (ar_cons false)).
  discriminate Bad; [apply toy_values; repeat constructor; discriminate|vm_compute; reflexivity].
Qed.
(** A header for the type without a value makes reading a transfer panic. *)
Theorem C69_no_panic_refuted : ~ forall R s, cons_from_armored R s <> Panic.
Proof.
  intros Bad. apply (Bad (toy_armor (ar_cons true) [header_with tType []]) (lit "armored"%string)). vm_compute. reflexivity.
Qed.

(** *** Examples: the headers of a consignment, and reading it *)
Example C69_example :
  map (fun h => (hd_title h, List.length (hd_values h))) (cons_headers bit_hashes ar_texts (ar_cons true)) =
    [(tVersion, 1%nat); (tType, 1%nat); (tContract, 1%nat); (tSchema, 1%nat); (tIface, 1%nat); (tTerminal, 1%nat)] /\
  reads_back (toy_armor (ar_cons true) (cons_headers bit_hashes ar_texts (ar_cons true))) (cons_headers bit_hashes ar_texts (ar_cons true)) (ar_cons true) /\
  armor_values (toy_armor (ar_cons true) (cons_headers bit_hashes ar_texts (ar_cons true))) /\
  cons_from_str (toy_armor (ar_cons true) (cons_headers bit_hashes ar_texts (ar_cons true))) true (lit "armored"%string) = Ok (ar_cons true) /\
  cons_from_str (toy_armor (ar_cons true) (cons_headers bit_hashes ar_texts (ar_cons true))) false (lit "armored"%string) = Err ReadType.
Proof.
  split; [vm_compute; reflexivity|]. split; [exists []; split; reflexivity|]. split; [apply toy_values; vm_compute; repeat (constructor; [discriminate|]); constructor|].
  split; vm_compute; reflexivity.
Qed.

Print Assumptions C69_consignment.
Print Assumptions C69_kit.
Print Assumptions C69_load.
Print Assumptions C69_read.
Print Assumptions C69_round_trip.
Print Assumptions C69_kit_round_trip.
Print Assumptions C69_headers_refuted.
Print Assumptions C69_file_kind_refuted.
Print Assumptions C69_no_panic_refuted.
