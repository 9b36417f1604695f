(** * What the reports on a refused extension of an interface should say

    In terms of the tables of the two interfaces; the names of operations are those of the
    interfaces. *)
From Verif Require Import Base IfaceModel IfaceSpec.
Local Open Scope N_scope.

(** There is no room for both, even if nothing is in common *)
Definition crowded {A B} (own : list A) (ext : list B) : Prop := U8MAX < len own + len ext.
(** The entries of the one table whose names the other does not have *)
Definition fresh {V} (own ext : omap N V) : omap N V := filter (fun p => negb (mhas (fst p) own)) ext.
(** The two tables have more than 255 names *)
Definition too_many {V} (own ext : omap N V) : Prop := U8MAX < len own + len (fresh own ext).

(** Fewer are asked for than before *)
Definition fewer (own ext : omap N Occ) (n : N) : Prop :=
  exists o x, mget n own = Some o /\ mget n ext = Some x /\ oc_min x < oc_min o.
Definition other_default (own ext : option N) : Prop := exists a b, own = Some a /\ ext = Some b /\ a <> b.

(** What each report says *)
Definition extension_fails (own ext : FullIface) (e : ExtensionError) : Prop :=
  let global n P := exists o x, mget n (ff_globals own) = Some o /\ mget n (ff_globals ext) = Some x /\ P o x in
  let assign n P := exists o x, mget n (ff_assigns own) = Some o /\ mget n (ff_assigns ext) = Some x /\ P o x in
  let on op P := exists o x, iface_op own op = Some o /\ iface_op ext op = Some x /\ P o x in
  match e with
  | GlobalType n => global n (fun o x => exists t, gi_sem o = Some t /\ gi_sem x <> Some t)
  | GlobalOcc n => global n (fun o x => (forall t, gi_sem o = Some t -> gi_sem x = Some t) /\ gi_required o = true /\ gi_required x = false)
  | AssignmentType n => assign n (fun o x => ~ refines_state (ai_state x) (ai_state o))
  | AssignmentOcc n => assign n (fun o x => refines_state (ai_state x) (ai_state o) /\ ai_required o = true /\ ai_required x = false)
  | AssignmentPublic n =>
      assign n (fun o x => refines_state (ai_state x) (ai_state o) /\ (ai_required o = true -> ai_required x = true) /\
                           ai_public o = true /\ ai_public x = false)
  | ValencyOcc n => mget n (ff_valencies own) = Some true /\ mget n (ff_valencies ext) = Some false
  | DefaultOverride => other_default (ff_default own) (ff_default ext)
  | OpFinal op => on op (fun o _ => oi_modifier o = MFinal)
  | OpNoOverride op => on op (fun o x => oi_modifier o <> MFinal /\ oi_modifier x = MAbstract)
  | OpOcc op PGlobal n => on op (fun o x => fewer (oi_globals o) (oi_globals x) n)
  | OpOcc op PAssignment n => on op (fun o x => fewer (oi_assigns o) (oi_assigns x) n)
  | OpOcc op PInput n => has_inputs op /\ on op (fun o x => fewer (oi_inputs o) (oi_inputs x) n)
  | OpOcc _ _ _ => False
  | OpDefaultOverride op => has_default op /\ on op (fun o x => other_default (oi_default o) (oi_default x))
  | MetaOverflow => crowded (ff_metadata own) (ff_metadata ext)
  | GlobalOverflow => too_many (ff_globals own) (ff_globals ext)
  | AssignmentOverflow => too_many (ff_assigns own) (ff_assigns ext)
  | ValencyOverflow => too_many (ff_valencies own) (ff_valencies ext)
  | TransitionOverflow => too_many (ff_transitions own) (ff_transitions ext)
  | ErrorOverflow => crowded (ff_errors own) (ff_errors ext)
  | OpOverflow op PMetadata => on op (fun o x => crowded (oi_metadata o) (oi_metadata x))
  | OpOverflow op PGlobal => on op (fun o x => too_many (oi_globals o) (oi_globals x))
  | OpOverflow op PAssignment => on op (fun o x => too_many (oi_assigns o) (oi_assigns x))
  | OpOverflow op PInput =>
      (has_inputs op /\ on op (fun o x => too_many (oi_inputs o) (oi_inputs x))) \/
      (has_redeems op /\ on op (fun o x => crowded (oi_redeems o) (oi_redeems x)))
  | OpOverflow op PValency => on op (fun o x => crowded (oi_valencies o) (oi_valencies x))
  | OpOverflow op PError => on op (fun o x => crowded (oi_errors o) (oi_errors x))
  | InheritanceOverflow => U8MAX < len (ff_inherits own) + len (ff_inherits ext) + 2
  end.

(** The reports call a state extension a transition *)
Definition said_op (op : OpName) : OpName := match op with ExtensionOp n => TransitionOp n | _ => op end.
Definition said (e : ExtensionError) : ExtensionError :=
  match e with
  | OpFinal op => OpFinal (said_op op)
  | OpNoOverride op => OpNoOverride (said_op op)
  | OpOverflow op p => OpOverflow (said_op op) p
  | OpDefaultOverride op => OpDefaultOverride (said_op op)
  | OpOcc op p n => OpOcc (said_op op) p n
  | _ => e
  end.
(** ... also when there are too many of them *)
Definition reported (own ext : FullIface) (e : ExtensionError) : Prop :=
  (exists e', extension_fails own ext e' /\ e = said e') \/
  (e = TransitionOverflow /\ too_many (ff_extensions own) (ff_extensions ext)).

(** The two interfaces have no state extension in common, and not too many of them *)
Definition apart (own ext : FullIface) : Prop :=
  (forall n, mget n (ff_extensions own) <> None -> mget n (ff_extensions ext) = None) /\
  ~ too_many (ff_extensions own) (ff_extensions ext).
