(** The same maps and rules in another order. *)
From Coq Require Import ZArith List Bool Permutation.
From Verif Require Import S_Types.
From Verif Require Import M_Outcome M_Ints M_Value M_Types M_Qualifier M_Search M_Stat M_StatMap M_HashMap M_Pair M_Defaults M_Querier
  S_StatMap S_Defaults S_Defaults2 S_Querier S_Totals S_EndToEnd S_Rules.
Import ListNotations.

Section S.
  Context {P : Prog} {Q : QFlag}.
  Notation VS s := (VT P (vt_value P (si_ty s))).
  (** The stats looked at. *)
  Variable among : inst P -> Prop.
  (** Stats start from the same values, and the entities have the same maps and rules, in any order. *)
  Definition reordered (g : game P Q) (l : list (law P Q)) (g' : game P Q) (l' : list (law P Q)) : Prop :=
    (forall s, among s -> starting g s = starting g' s) /\
    forall e, match w_entities (j_world (g_querier g)) e, w_entities (j_world (g_querier g')) e with
              | Some ch, Some ch' => Permutation (causes g l e (or_nil ch)) (causes g' l' e (or_nil ch'))
              | None, None => True
              | _, _ => False
              end.
  (** A question about one of the stats looked at. *)
  Definition about (q : request P Q) : Prop := match q with RStat _ _ s => among s | _ => False end.
  (** A rule about a stat looked at asks about stats of lower rank among them and does not set a base. *)
  Definition plain_rule (rank : inst P -> nat) (r : rule P Q) : Prop :=
    among (r_to r) -> forall e x,
    only_asks (fun q => exists e' x' s', q = RStat e' x' s' /\ among s' /\ rank s' < rank (r_to r)) (r_code r e x) /\
    returns (Forall (fun o => match o with OBase _ => False | _ => True end)) (r_code r e x).
  (** The provided types that need no order (C08), and those that agree if they do not panic (C09). *)
  Definition needs_no_order (S : StatValue) : Prop :=
    (exists oc T, (i_flav T = FWrapping \/ (i_flav T = FPrim /\ oc = false)) /\ (S = statInt oc T \/ exists R scale, S = statPctAdd oc T R scale)) \/
    S = statFlags zflags \/ S = statExists \/ S = boolV \/ (exists A, S = statOnce A).
  Definition agrees_in_any_order (S : StatValue) : Prop :=
    needs_no_order S \/ exists t, S = statInt true (prim t) \/ exists R scale, S = statPctAdd true (prim t) R scale.
End S.
