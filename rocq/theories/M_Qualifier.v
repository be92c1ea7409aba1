(** Qualifiers and qualifier queries (src/qualifier.rs). *)
From Coq Require Import ZArith Bool.
Local Open Scope Z_scope.

(** [trait QualifierFlag] (src/qualifier.rs:16-25) with its supertraits [BitOr] and [Ord]
    ([q_eqb] is [==]). [is_none_or_intersects] is an overridable provided method. *)
Record QFlag : Type := {
  qcar : Type;
  q_bitor : qcar -> qcar -> qcar;
  q_contains : qcar -> qcar -> bool;
  q_intersects : qcar -> qcar -> bool;
  q_is_none_or_intersects : qcar -> qcar -> bool;
  q_set_equals : qcar -> qcar -> bool;
  q_none : qcar;
  q_is_none : qcar -> bool;
  q_eqb : qcar -> qcar -> bool;
  q_cmp : qcar -> qcar -> comparison
}.

(** The blanket impl (src/qualifier.rs:27-56) with the provided method (19-21). *)
Definition blanketQ (A : Type) (bitor bitand : A -> A -> A) (dflt : A)
    (eqb : A -> A -> bool) (cmp : A -> A -> comparison) : QFlag :=
  let is_none a := eqb a dflt in
  let intersects a b := negb (is_none (bitand a b)) in
  {|
    qcar := A;
    q_bitor := bitor;
    q_contains := fun self other => eqb (bitand self other) other;
    q_intersects := intersects;
    q_is_none_or_intersects := fun self other => is_none self || intersects self other;
    q_set_equals := eqb;
    q_none := dflt;
    q_is_none := is_none;
    q_eqb := eqb;
    q_cmp := cmp
  |}.

(** Integers as flags, e.g. [StatMap<u32>] in the tests. *)
Definition intQ : QFlag := blanketQ Z Z.lor Z.land 0 Z.eqb Z.compare.

(** [bool] as a flag. *)
Definition bool_compare (a b : bool) : comparison :=
  match a, b with false, true => Lt | true, false => Gt | _, _ => Eq end.
Definition boolQ : QFlag := blanketQ bool orb andb false Bool.eqb bool_compare.

Section Qualifier.
  Variable Q : QFlag.
  Notation q := (qcar Q).

  (** [struct Qualifier] (src/qualifier.rs:81-84). *)
  Record qualifier : Type := Qual { any_of : q; all_of : q }.

  (** [enum QualifierQuery] (src/qualifier.rs:154-166). *)
  Inductive qquery : Type :=
  | Aggregate (some_of : q)
  | Exact (any_of : q) (all_of : q).

  (** [Qualifier::none], [Default] (src/qualifier.rs:86-101). *)
  Definition qual_none : qualifier := Qual (q_none Q) (q_none Q).
  (** 103-105 *)
  Definition qual_is_none (x : qualifier) : bool := q_is_none Q (any_of x) && q_is_none Q (all_of x).
  (** 107-119 *)
  Definition qual_any_of (f : q) : qualifier := Qual f (q_none Q).
  Definition qual_all_of (f : q) : qualifier := Qual (q_none Q) f.
  (** 121-133 *)
  Definition and_any_of (x : qualifier) (f : q) : qualifier := Qual (q_bitor Q (any_of x) f) (all_of x).
  Definition and_all_of (x : qualifier) (f : q) : qualifier := Qual (any_of x) (q_bitor Q (all_of x) f).

  (** [Qualifier::qualifies_as] (src/qualifier.rs:140-149). *)
  Definition qualifies_as (self : qualifier) (queried : qquery) : bool :=
    match queried with
    | Aggregate some_of =>
        q_contains Q some_of (all_of self) && q_is_none_or_intersects Q (any_of self) some_of
    | Exact any all =>
        q_contains Q (any_of self) any && q_eqb Q (all_of self) all
    end.

  (** [QualifierQuery::qualifies_none], [qualify], [none], [Default] (src/qualifier.rs:168-188). *)
  Definition qualifies_none (x : qquery) : bool := qualifies_as qual_none x.
  Definition qualify (x : qquery) (y : qualifier) : bool := qualifies_as y x.
  Definition query_none : qquery := Aggregate (q_none Q).

  (** The derived [Ord] of [Qualifier] (src/qualifier.rs:79): lexicographic in field order. *)
  Definition qual_cmp (x y : qualifier) : comparison :=
    match q_cmp Q (any_of x) (any_of y) with
    | Eq => q_cmp Q (all_of x) (all_of y)
    | c => c
    end.
End Qualifier.
Arguments Qual {Q}.
Arguments any_of {Q}.
Arguments all_of {Q}.
Arguments Aggregate {Q}.
Arguments Exact {Q}.
Arguments qualifies_as {Q}.
Arguments qual_is_none {Q}.
Arguments and_any_of {Q}.
Arguments and_all_of {Q}.
Arguments qualifies_none {Q}.
Arguments qualify {Q}.
Arguments qual_cmp {Q}.
