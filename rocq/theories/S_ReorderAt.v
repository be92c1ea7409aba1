(** The same maps and rules in another order, where questions are ranked. *)
From Coq Require Import ZArith List Bool.
From Verif Require Import M_Outcome M_Value M_Qualifier M_Search M_Stat M_StatMap M_HashMap M_Pair M_Defaults M_Querier
  S_Querier S_Totals S_EndToEnd S_Rules.
Import ListNotations.

Section S.
  Context {P : Prog} {Q : QFlag}.
  Variable among : inst P -> Prop.
  (** A rule about a stat looked at asks questions of lower rank about stats among them and does not set
      a base. *)
  Definition plain_at (rank : entity -> qquery Q -> inst P -> nat) (r : rule P Q) : Prop :=
    among (r_to r) -> forall e x,
    only_asks (fun q => exists e' x' s', q = RStat e' x' s' /\ among s' /\ rank e' x' s' < rank e x (r_to r)) (r_code r e x) /\
    returns (Forall (fun o => match o with OBase _ => False | _ => True end)) (r_code r e x).
End S.
