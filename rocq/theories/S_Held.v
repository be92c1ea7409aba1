(** Bounds registered as defaults, and what might lift them. *)
From Coq Require Import ZArith List Bool.
From Verif Require Import S_Types.
From Verif Require Import M_Outcome M_Value M_Qualifier M_Search M_Stat M_StatMap M_HashMap M_Pair M_Defaults M_Querier
  S_StatMap S_Defaults S_Defaults2 S_Querier S_Totals S_EndToEnd S_Rules.
Import ListNotations.

(** [Base] overwrites a value, bounds included; nothing else does. *)
Definition no_base {S : StatValue} (o : stat_op S) : Prop := match o with OBase _ => False | _ => True end.
Section S.
  Context {P : Prog} {Q : QFlag}.
  Notation VS s := (VT P (vt_value P (si_ty s))).
  (** A registration that leaves bounds of [s] in place: anything but another default value. *)
  Definition leaves_bounds (s : inst P) (d : dedit P) : Prop :=
    match d with EDefault s' _ _ => s' <> s | EPatch s' o => s' = s -> no_base o end.
  (** The last calls that register anything for [s] begin with this one, and do not take it back. *)
  Definition registered (g : game P Q) (s : inst P) (o : stat_op (VS s)) : Prop :=
    exists l1 l2, g_defaults g = Some (l1 ++ EPatch s o :: l2) /\ Forall (leaves_bounds s) l2.
  (** A rule that, when it is about [s], never sets the base. *)
  Definition adjusts (s : inst P) (r : rule P Q) : Prop := r_to r = s -> forall e x, returns (Forall no_base) (r_code r e x).
End S.
