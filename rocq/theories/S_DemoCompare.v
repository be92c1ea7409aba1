(** Values for the examples: zeros of either sign. *)
From Coq Require Import ZArith List Bool.
From Flocq Require Import Core BinarySingleNaN.
From Verif Require Import M_Outcome M_Ints M_Ratio M_Float M_Value M_Types M_Compare S_Zeros S_Compare.
Import ListNotations.
Local Open Scope Z_scope.

Definition zero (s : bool) : f32 := B754_zero s.
Definition zero_stat (s : bool) : quad f32 f32 := Quad (zero s) (b_minv 24 128 prec24 emax128) (b_maxv 24 128 prec24 emax128) (b_one 24 128 prec24 emax128).
Definition zero_steps (s : bool) : list (step (statFloat f32F)) :=
  [Write (@OAdd (statFloat f32F) (zero s)); Join (zero_stat s : val (statFloat f32F)); Write (@OMax (statFloat f32F) (zero s))].
(** The sign of the zero that comes out. *)
Definition zero_worth (s : bool) : outcome (option bool) :=
  let! v := steps (S := statFloat f32F) (zero_stat s) (zero_steps s) in
  let! r := sv_eval (statFloat f32F) v in
  Done match (r : f32) with B754_zero b => Some b | _ => None end.
