(** Rules that ask for a stat of some other entity or qualifier, or for nothing. *)
From Coq Require Import ZArith List Bool.
From Verif Require Import M_Outcome M_Value M_Qualifier M_Search M_Stat M_StatMap M_HashMap M_Pair M_Defaults M_Querier
  S_Querier S_Totals S_EndToEnd S_Monotone S_MonoQuery S_Rules S_RulesMono.
Import ListNotations.

Section S.
  Context {P : Prog} {Q : QFlag}.
  Notation VS s := (VT P (vt_value P (si_ty s))).
  (** [to] of an entity follows from [from] of the one that [at_] says, if any. *)
  Definition follows_if (to from : inst P) (at_ : entity -> qquery Q -> option (entity * qquery Q)) (f : outT (VS from) -> list (stat_op (VS to))) : rule P Q :=
    {| r_to := to;
       r_code := fun e x => match at_ e x with
         | None => Ret []
         | Some p => pbind (p_query_eval (fst p) (snd p) from) (fun o => Ret (match o with Some r => f r | None => [] end))
         end |}.
  Variable O : forall s : inst P, merits (VS s).
  Variable le : forall s : inst P, outT (VS s) -> outT (VS s) -> Prop.
  Variable among : inst P -> Prop.
  (** A rule about a stat looked at asks a question of lower rank, if any, and more of what it asks for
      is no loss. *)
  Definition fair_at (rank : entity -> qquery Q -> inst P -> nat) (r : rule P Q) : Prop :=
    among (r_to r) -> exists to from at_ f, r = follows_if to from at_ f /\ among from /\
      (forall e x p, at_ e x = Some p -> rank (fst p) (snd p) from < rank e x to) /\ forall a b, le from a b -> ops_improved (O to) (f a) (f b).
End S.
