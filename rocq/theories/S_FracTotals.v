(** What a float stat over [Fraction] is worth, in rational numbers, read off everything that went into it. *)
From Coq Require Import ZArith QArith Qminmax List.
From Verif Require Import M_Ints M_Ratio S_Ratio S_Totals.
Import ListNotations.
Local Open Scope Z_scope.

(** The exact sum and the exact product. *)
Definition qsum (l : list ratio) : Q := fold_right (fun r s => (toQ r + s)%Q) 0%Q l.
Definition qproduct (l : list ratio) : Q := fold_right (fun r p => (toQ r * p)%Q) 1%Q l.

(** [x] brought below the upper bounds, then above the lower ones; the largest and the smallest
    integer of the type are always among them. *)
Definition qleast (top : Z) (l : list ratio) : Q := fold_right (fun r m => Qmin (toQ r) m) (inject_Z top) l.
Definition qmost (bottom : Z) (l : list ratio) : Q := fold_right (fun r m => Qmax (toQ r) m) (inject_Z bottom) l.
Definition qbounded (t : ity) (los his : list ratio) (x : Q) : Q :=
  Qmax (Qmin x (qleast (imax t) his)) (qmost (imin t) los).

(** The numerators over the common denominator [D], and the sum of their sizes. *)
Definition scaled (D : Z) (l : list ratio) : list Z := map (fun r => numer r * (D / denom r)) l.
(** [D] is a common denominator, and over it there is room for the sum. *)
Definition adds_over (t : ity) (D : Z) (l : list ratio) : Prop :=
  0 < D <= imax t /\ Forall (fun r => (denom r | D)) l /\ room (scaled D l) <= imax t.
