(** Specification: what std requires of comparisons, and what it is for equal values to behave alike. *)
From Coq Require Import ZArith List Bool.
From Flocq Require Import Core BinarySingleNaN.
From Verif Require Import M_Outcome M_Ints M_Ratio M_Float M_Value M_Types M_Compare S_Ratio S_Zeros.
Import ListNotations.
Local Open Scope Z_scope.

(** std's contract of [PartialEq] and [PartialOrd], among the values in [P]. *)
Record contract {A} (P : A -> Prop) (c : comparing A) : Prop := {
  eq_sym : forall x y, P x -> P y -> c_eq c x y = true -> c_eq c y x = true;
  eq_trans : forall x y z, P x -> P y -> P z -> c_eq c x y = true -> c_eq c y z = true -> c_eq c x z = true;
  agrees : forall x y, P x -> P y -> (c_cmp c x y = Some Eq <-> c_eq c x y = true);
  dual : forall x y, P x -> P y -> (c_cmp c x y = Some Lt <-> c_cmp c y x = Some Gt);
  lt_trans : forall x y z, P x -> P y -> P z -> c_cmp c x y = Some Lt -> c_cmp c y z = Some Lt -> c_cmp c x z = Some Lt;
  lt_eq : forall x y z, P x -> P y -> P z -> c_cmp c x y = Some Lt -> c_eq c y z = true -> c_cmp c x z = Some Lt;
  eq_lt : forall x y z, P x -> P y -> P z -> c_eq c x y = true -> c_cmp c y z = Some Lt -> c_cmp c x z = Some Lt
}.
(** What [Eq] and [Ord] require on top. *)
Definition reflexive {A} (P : A -> Prop) (c : comparing A) : Prop := forall x, P x -> c_eq c x x = true.
Definition total {A} (P : A -> Prop) (c : comparing A) : Prop := forall x y, P x -> P y -> c_cmp c x y <> None.

(** The operand of [o] is among those allowed. *)
Record allowed (S : StatValue) : Type := Allowed {
  in_add : addT S -> Prop; in_mul : mulT S -> Prop; in_bit : bitT S -> Prop; in_bound : boundsT S -> Prop; in_base : baseT S -> Prop
}.
Arguments Allowed {S}.
Arguments in_add {S}. Arguments in_mul {S}. Arguments in_bit {S}. Arguments in_bound {S}. Arguments in_base {S}.
Definition op_in {S} (D : allowed S) (o : stat_op S) : Prop :=
  match o with OAdd x => in_add D x | OMul x => in_mul D x | OOr x | ONot x => in_bit D x | OMin x | OMax x => in_bound D x | OBase x => in_base D x end.
Definition anything (A : Type) : A -> Prop := fun _ => True.
(** The operands of each kind satisfy a law. *)
Definition operand_wise {S} (law : forall A, (A -> Prop) -> comparing A -> Prop) (D : allowed S) (K : operands S) : Prop :=
  law _ (in_add D) (k_add K) /\ law _ (in_mul D) (k_mul K) /\ law _ (in_bit D) (k_bit K) /\ law _ (in_bound D) (k_bound K) /\ law _ (in_base D) (k_base K).

(** The kinds in the order of their declaration. *)
Inductive kind : Type := Adds | Muls | Ors | Nots | Mins | Maxs | Bases.
Definition kinds : list kind := [Adds; Muls; Ors; Nots; Mins; Maxs; Bases].
Definition kind_of {S} (o : stat_op S) : kind :=
  match o with OAdd _ => Adds | OMul _ => Muls | OOr _ => Ors | ONot _ => Nots | OMin _ => Mins | OMax _ => Maxs | OBase _ => Bases end.
(** [k] is declared before [l]. *)
Definition before (k l : kind) : Prop := exists a b c, kinds = a ++ k :: b ++ l :: c.

(** What can be done to a value. *)
Inductive step (S : StatValue) : Type := Write (o : stat_op S) | Join (u : val S).
Arguments Write {S}.
Arguments Join {S}.
Fixpoint steps {S} (v : val S) (l : list (step S)) : outcome (val S) :=
  match l with
  | [] => Done v
  | Write o :: l => let! w := write_to o v in steps w l
  | Join u :: l => let! w := sv_join S v u in steps w l
  end.
(** Equal operations, or joins with equal values. *)
Definition step_equal {S} (K : operands S) (veq : val S -> val S -> bool) (a b : step S) : Prop :=
  match a, b with
  | Write o, Write o' => op_eq K o o' = true
  | Join u, Join u' => veq u u' = true
  | _, _ => False
  end.
Definition step_in {S} (D : allowed S) (ok : val S -> Prop) (a : step S) : Prop :=
  match a with Write o => op_in D o | Join u => ok u end.

(** Equal values, after equal steps, are worth the same, or panic alike. *)
Definition interchangeable {S} (K : operands S) (veq : val S -> val S -> bool) (D : allowed S) (ok : val S -> Prop)
    (R : outT S -> outT S -> Prop) : Prop :=
  forall v w l m, veq v w = true -> ok v -> ok w -> Forall2 (step_equal K veq) l m -> Forall (step_in D ok) l -> Forall (step_in D ok) m ->
  match (let! x := steps v l in sv_eval S x), (let! x := steps w m in sv_eval S x) with
  | Done a, Done b => R a b
  | Panics p, Panics q => p = q
  | UB, UB | NoFuel, NoFuel => True
  | _, _ => False
  end.
Definition all_ops (S : StatValue) : allowed S := Allowed (anything _) (anything _) (anything _) (anything _) (anything _).
