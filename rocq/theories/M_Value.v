(** The [StatValue] trait and [StatOperation] (src/operations.rs). *)
From Coq Require Import List.
From Verif Require Import M_Outcome.

(** [trait StatValue] (src/operations.rs:46-73). [&mut self] methods return the new self.
    [Unsupported] (41-42) is [Empty_set]. [sv_clone] is not a field: model values are
    immutable, cloning is the identity; [join_by_ref] (51-53) is [join] of a clone. *)
Record StatValue : Type := {
  val : Type;
  outT : Type;
  addT : Type; mulT : Type; bitT : Type; boundsT : Type; baseT : Type;
  sv_default : val;
  sv_join : val -> val -> outcome val;
  sv_eval : val -> outcome outT;
  sv_add : val -> addT -> outcome val;
  sv_mul : val -> mulT -> outcome val;
  sv_not : val -> bitT -> outcome val;
  sv_or : val -> bitT -> outcome val;
  sv_min : val -> boundsT -> outcome val;
  sv_max : val -> boundsT -> outcome val;
  sv_from_base : baseT -> val
}.

(** [enum StatOperation] (src/operations.rs:6-14). *)
Inductive stat_op (S : StatValue) : Type :=
| OAdd (x : addT S)
| OMul (x : mulT S)
| OOr (x : bitT S)
| ONot (x : bitT S)
| OMin (x : boundsT S)
| OMax (x : boundsT S)
| OBase (x : baseT S).
Arguments OAdd {S} x.
Arguments OMul {S} x.
Arguments OOr {S} x.
Arguments ONot {S} x.
Arguments OMin {S} x.
Arguments OMax {S} x.
Arguments OBase {S} x.

(** [StatOperation::write_to] (src/operations.rs:21-31). *)
Definition write_to {S : StatValue} (op : stat_op S) (to : val S) : outcome (val S) :=
  match op with
  | OAdd item => sv_add S to item
  | OMul item => sv_mul S to item
  | OOr item => sv_or S to item
  | ONot item => sv_not S to item
  | OMin item => sv_min S to item
  | OMax item => sv_max S to item
  | OBase item => Done (sv_from_base S item)
  end.

(** [StatOperation::into_stat] (src/operations.rs:33-37). *)
Definition into_stat {S : StatValue} (op : stat_op S) : outcome (val S) :=
  write_to op (sv_default S).

(** A trait method that is not overridden: [{}] (src/operations.rs:63-70). *)
Definition noop {A B : Type} (v : A) (_ : B) : outcome A := Done v.

(** [impl StatValue for bool] (src/operations.rs:75-99): none of the operations is overridden. *)
Definition boolV : StatValue := {|
  val := bool; outT := bool;
  addT := Empty_set; mulT := Empty_set; bitT := bool; boundsT := Empty_set; baseT := bool;
  sv_default := false;
  sv_join := fun self other => Done (orb self other);
  sv_eval := fun self => Done self;
  sv_add := noop; sv_mul := noop; sv_not := noop; sv_or := noop; sv_min := noop; sv_max := noop;
  sv_from_base := fun base => base
|}.
