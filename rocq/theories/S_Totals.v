(** What a stat value is worth, read off the list of everything that went into it. *)
From Coq Require Import ZArith List.
From Verif Require Import M_Outcome M_Ints M_Ratio M_Float M_Value M_Types S_Ratio S_Types.
Import ListNotations.
Local Open Scope Z_scope.

(** How a value came about: by [default] or [from_base], by operations applied to it in place, by
    joining another value that came about in some way. *)
Inductive history (S : StatValue) : Type :=
| FromDefault
| FromBase (b : baseT S)
| Applied (h : history S) (o : stat_op S)
| Joined (h k : history S).
Arguments FromDefault {S}.
Arguments FromBase {S} b.
Arguments Applied {S} h o.
Arguments Joined {S} h k.

Fixpoint value_of {S : StatValue} (h : history S) : outcome (val S) :=
  match h with
  | FromDefault => Done (sv_default S)
  | FromBase b => Done (sv_from_base S b)
  | Applied h o => let! v := value_of h in write_to o v
  | Joined h k => let! v := value_of h in let! w := value_of k in sv_join S v w
  end.
Definition worth {S : StatValue} (h : history S) : outcome (outT S) :=
  let! v := value_of h in sv_eval S v.

(** Everything contributed of one kind; [Base] discards what was there. *)
Fixpoint gathered {S : StatValue} {B : Type} (f : stat_op S -> list B) (h : history S) : list B :=
  match h with
  | FromDefault => []
  | FromBase b => f (OBase b)
  | Applied _ (OBase b) => f (OBase b)
  | Applied h o => gathered f h ++ f o
  | Joined h k => gathered f h ++ gathered f k
  end.

Section Kinds.
  Context {S : StatValue} {A : Type}.
  (** What is added, a base counting as an addition; the multipliers; the bounds. *)
  Definition gains (h : history S) (add : addT S -> A) (base : baseT S -> A) : list A :=
    gathered (fun o => match o with OAdd x => [add x] | OBase x => [base x] | _ => [] end) h.
  Definition factors (h : history S) (mul : mulT S -> A) : list A :=
    gathered (fun o => match o with OMul x => [mul x] | _ => [] end) h.
  Definition floors (h : history S) (bnd : boundsT S -> A) : list A :=
    gathered (fun o => match o with OMin x => [bnd x] | _ => [] end) h.
  Definition ceilings (h : history S) (bnd : boundsT S -> A) : list A :=
    gathered (fun o => match o with OMax x => [bnd x] | _ => [] end) h.
End Kinds.

Definition same {A : Type} (x : A) : A := x.
Definition sum (l : list Z) : Z := fold_right Z.add 0 l.
Definition product (l : list Z) : Z := fold_right Z.mul 1 l.

(** [x] brought below the upper bounds, then above the lower ones. *)
Definition bounded (t : ity) (los his : list Z) (x : Z) : Z :=
  Z.max (Z.min x (smallest (imax t) his)) (largest (imin t) los).

(** The base is not set again after contributions were made. *)
Fixpoint steady {S : StatValue} (h : history S) : Prop :=
  match h with
  | FromDefault | FromBase _ => True
  | Applied h o => steady h /\ match o with OBase _ => False | _ => True end
  | Joined h k => steady h /\ steady k
  end.

(** No values are joined in. *)
Fixpoint alone {S : StatValue} (h : history S) : Prop :=
  match h with
  | FromDefault | FromBase _ => True
  | Applied h _ => alone h
  | Joined _ _ => False
  end.
(** A base was given. *)
Fixpoint based {S : StatValue} (h : history S) : Prop :=
  match h with
  | FromDefault => False
  | FromBase _ => True
  | Applied h (OBase _) => True
  | Applied h _ => based h
  | Joined _ _ => False
  end.

(** Sizes that leave room for every intermediate result. *)
Definition room (l : list Z) : Z := sum (map Z.abs l).
Definition room_mul (l : list Z) : Z := product (map (fun x => Z.max 1 (Z.abs x)) l).

Definition prim (t : ity) : intp := {| i_ty := t; i_flav := FPrim |}.

(** Fractions multiplied: numerators and denominators. *)
Definition over (l : list ratio) : Z := product (map numer l).
Definition under (l : list ratio) : Z := product (map denom l).
(** What leaves room for the products of fractions. *)
Definition room_frac (l : list ratio) : Z := product (map (fun r => Z.max (Z.abs (numer r)) (denom r)) l).
