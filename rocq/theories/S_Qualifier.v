(** Specification of qualifier matching over plain sets of flags (predicates). *)
From Coq Require Import ZArith Bool List.
From Verif Require Import M_Qualifier.
Import ListNotations.

Definition subset {F : Type} (a b : F -> Prop) : Prop := forall f, a f -> b f.
Definition empty {F : Type} (a : F -> Prop) : Prop := forall f, ~ a f.
Definition meets {F : Type} (a b : F -> Prop) : Prop := exists f, a f /\ b f.
Definition same {F : Type} (a b : F -> Prop) : Prop := forall f, a f <-> b f.

(** When a modifier (any, all) applies to an aggregate query [s]. *)
Definition applies_aggregate {F : Type} (any all s : F -> Prop) : Prop :=
  subset all s /\ (empty any \/ meets any s).

(** When a modifier (any, all) applies to an exact query (qany, qall). *)
Definition applies_exact {F : Type} (any all qany qall : F -> Prop) : Prop :=
  same all qall /\ subset qany any.

(** A flag type whose trait methods implement sets: [mem x] is the set [x] stands for. *)
Record lawful (Q : QFlag) (F : Type) (mem : qcar Q -> F -> Prop) : Prop := {
  law_or : forall a b f, mem (q_bitor Q a b) f <-> mem a f \/ mem b f;
  law_contains : forall a b, q_contains Q a b = true <-> subset (mem b) (mem a);
  law_intersects : forall a b, q_intersects Q a b = true <-> meets (mem a) (mem b);
  law_none_or : forall a b, q_is_none_or_intersects Q a b = q_is_none Q a || q_intersects Q a b;
  law_set_equals : forall a b, q_set_equals Q a b = true <-> same (mem a) (mem b);
  law_none : empty (mem (q_none Q));
  law_is_none : forall a, q_is_none Q a = true <-> empty (mem a);
  law_eqb : forall a b, q_eqb Q a b = true <-> same (mem a) (mem b)
}.


(** Bit [i] of an integer used as a flag set. *)
Definition zmem (x : Z) (i : nat) : Prop := Z.testbit x (Z.of_nat i) = true.

(** A flag type for which [==] is finer than [set_equals] (allowed by the trait): lists of flags. *)
Definition lcontains (a b : list nat) : bool := forallb (fun f => existsb (Nat.eqb f) a) b.
Definition lintersects (a b : list nat) : bool := existsb (fun f => existsb (Nat.eqb f) b) a.
Fixpoint leqb (a b : list nat) : bool :=
  match a, b with
  | [], [] => true
  | x :: a', y :: b' => Nat.eqb x y && leqb a' b'
  | _, _ => false
  end.
Definition listQ : QFlag := {|
  qcar := list nat; q_bitor := @app nat; q_contains := lcontains; q_intersects := lintersects;
  q_is_none_or_intersects := fun a b => match a with [] => true | _ => lintersects a b end;
  q_set_equals := fun a b => lcontains a b && lcontains b a;
  q_none := []; q_is_none := fun a => match a with [] => true | _ => false end;
  q_eqb := leqb; q_cmp := fun _ _ => Eq
|}.
