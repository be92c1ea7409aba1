(** Histories of default registrations for the examples. *)
From Coq Require Import ZArith List Bool.
From Verif Require Import M_Outcome M_Value M_Types M_Stat M_StatMap M_HashMap M_Pair M_Defaults S_Defaults S_Demo.
Import ListNotations.
Local Open Scope Z_scope.

(** A [StatOperation] on a 16-byte value occupies 24 bytes. *)
Definition op_size (t : vty demo) : Z := match t with VNum => 24 | VBool => 2 end.
Definition op_align (t : vty demo) : Z := match t with VNum => 8 | VBool => 1 end.
Definition dput_hp (x : Z) : dcall demo := DInsert hp (num x).
Definition dput_atk (x : Z) : dcall demo := DInsert atk (num x).
Definition dmin_hp (x : Z) : dcall demo := register_min hp x.
Definition dmax_hp (x : Z) : dcall demo := register_max hp x.
Definition demo_defaults (l : list (dcall demo)) : defaults demo :=
  match d_run op_size op_align [] l with Done (d, _) => d | _ => [] end.
Definition defaults_ok (l : list (dcall demo)) : outcome nat :=
  let! r := d_run op_size op_align [] l in Done (length (snd r)).
Definition dget_hp (d : defaults demo) : outcome (quad Z Z) := d_get d hp.
Definition dget_atk (d : defaults demo) : outcome (quad Z Z) := d_get d atk.
Definition dget_alive (d : defaults demo) : outcome bool := d_get d alive.
Definition ddyn_hp (d : defaults demo) : outcome (quad Z Z * nat) :=
  let! r := d_get_dyn d hp in let! v := buf_into demo VNum (fst r) in Done (v, length (snd r)).
Definition ddrop_count (d : defaults demo) : outcome nat := let! r := d_drop d in Done (length r).
