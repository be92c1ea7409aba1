(** Results of model functions: a Rust function that may panic, or whose unsafe
    code may have undefined behaviour, returns an [outcome]. *)
From Coq Require Import List ZArith.
Import ListNotations.

(** Why a panic happens. Each constructor names one panicking site of the code. *)
Inductive panic : Type :=
| POverflow      (** arithmetic overflow: overflow checks, and [MIN / -1] in every build *)
| PDivZero       (** integer division by zero; [Ratio::new] with a zero denominator *)
| PClamp         (** [Ord::clamp] with [min > max] *)
| PAlign         (** src/buffer.rs:9-15 *)
| PSize          (** src/buffer.rs:16-22 *)
| PDuplicate     (** src/plugin.rs:261 [assert_eq!] in [register] *)
| PBadIndex      (** derive/src/lib.rs:101-103 [from_index] of an unknown index *)
| PNoSerialize   (** src/stat.rs:86-87 *)
| PUnwrap        (** [Option::unwrap]/[expect] on [None] *)
| PIndex         (** an index or range out of bounds of a [Vec] or slice *)
| PUser.         (** a panic raised by user supplied stream code *)

Inductive outcome (A : Type) : Type :=
| Done (a : A)
| Panics (p : panic)
| UB               (** undefined behaviour: a value read at a type it was not written with *)
| NoFuel.          (** only the query interpreter: recursion deeper than the given fuel *)
Arguments Done {A} a.
Arguments Panics {A} p.
Arguments UB {A}.
Arguments NoFuel {A}.

Definition obind {A B} (m : outcome A) (f : A -> outcome B) : outcome B :=
  match m with
  | Done a => f a
  | Panics p => Panics p
  | UB => UB
  | NoFuel => NoFuel
  end.

Notation "'let!' x ':=' m 'in' k" := (obind m (fun x => k))
  (at level 200, x binder, m at level 100, k at level 200, right associativity).

Definition omap {A B} (f : A -> B) (m : outcome A) : outcome B := obind m (fun a => Done (f a)).

(** A [for] loop over a list that mutates an accumulator. *)
Fixpoint ofold {A B} (f : A -> B -> outcome A) (a : A) (l : list B) : outcome A :=
  match l with
  | [] => Done a
  | b :: l' => let! a' := f a b in ofold f a' l'
  end.
