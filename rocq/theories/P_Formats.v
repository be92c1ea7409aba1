(** C59: the two formats of floats the crate is used with. *)
From Coq Require Import ZArith Reals List Bool Lia Lra.
From Flocq Require Import Core BinarySingleNaN.
From Verif Require Import M_Outcome M_Float S_Float L_Formats.
Import ListNotations.
Local Open Scope R_scope.

(** [f32] is binary32: 24 digits, a scale no smaller than 2^-149, nothing of size 2^128 or more. Sums, differences
    and products are the nearest such number, ties to even, if it fits. *)
Theorem C59_f32 :
  let near r := round radix2 (FLT_exp (-149) 24) ZnearestE r in
  let fits r := Rabs (near r) < bpow radix2 128 in
  (B2R (f_zero f32F : f32) = 0 /\ B2R (f_one f32F : f32) = 1 /\
   B2R (f_maxv f32F : f32) = (2 - bpow radix2 (- (24 - 1))) * bpow radix2 (128 - 1) /\
   B2R (f_minv f32F : f32) = - ((2 - bpow radix2 (- (24 - 1))) * bpow radix2 (128 - 1))) /\
  forall x y : f32, is_finite x = true -> is_finite y = true ->
  (fits (B2R x + B2R y) -> exists z : f32, f_add f32F x y = Done z /\ is_finite z = true /\ B2R z = near (B2R x + B2R y)) /\
  (fits (B2R x - B2R y) -> exists z : f32, f_sub f32F x y = Done z /\ is_finite z = true /\ B2R z = near (B2R x - B2R y)) /\
  (fits (B2R x * B2R y) -> exists z : f32, f_mul f32F x y = Done z /\ is_finite z = true /\ B2R z = near (B2R x * B2R y)) /\
  (Beqb x y = true <-> B2R x = B2R y) /\ (f_ltb f32F x y = true <-> B2R x < B2R y).
Proof. exact C59_f32_proof. Qed.
Print Assumptions C59_f32.
(** 2^24 and 1 is 2^24, 2^24 - 1 and 1 too. *)
Example C59_f32_case :
  let big : f32 := b_of_int 24 128 prec24 emax128 (2 ^ 24) in let less : f32 := b_of_int 24 128 prec24 emax128 (2 ^ 24 - 1) in
  is_finite big = true /\ is_finite less = true /\ Beqb less big = false /\
  match f_add f32F big (f_one f32F), f_add f32F less (f_one f32F) with Done a, Done b => Beqb (a : f32) big && Beqb (b : f32) big | _, _ => false end = true.
Proof. vm_compute. repeat split. Qed.

(** [f64] is binary64: 53 digits, a scale no smaller than 2^-1074, nothing of size 2^1024 or more. Sums, differences
    and products are the nearest such number, ties to even, if it fits. *)
Theorem C59_f64 :
  let near r := round radix2 (FLT_exp (-1074) 53) ZnearestE r in
  let fits r := Rabs (near r) < bpow radix2 1024 in
  (B2R (f_zero f64F : f64) = 0 /\ B2R (f_one f64F : f64) = 1 /\
   B2R (f_maxv f64F : f64) = (2 - bpow radix2 (- (53 - 1))) * bpow radix2 (1024 - 1) /\
   B2R (f_minv f64F : f64) = - ((2 - bpow radix2 (- (53 - 1))) * bpow radix2 (1024 - 1))) /\
  forall x y : f64, is_finite x = true -> is_finite y = true ->
  (fits (B2R x + B2R y) -> exists z : f64, f_add f64F x y = Done z /\ is_finite z = true /\ B2R z = near (B2R x + B2R y)) /\
  (fits (B2R x - B2R y) -> exists z : f64, f_sub f64F x y = Done z /\ is_finite z = true /\ B2R z = near (B2R x - B2R y)) /\
  (fits (B2R x * B2R y) -> exists z : f64, f_mul f64F x y = Done z /\ is_finite z = true /\ B2R z = near (B2R x * B2R y)) /\
  (Beqb x y = true <-> B2R x = B2R y) /\ (f_ltb f64F x y = true <-> B2R x < B2R y).
Proof. exact C59_f64_proof. Qed.
Print Assumptions C59_f64.
(** 2^53 and 1 is 2^53, 2^53 - 1 and 1 too. *)
Example C59_f64_case :
  let big : f64 := b_of_int 53 1024 prec53 emax1024 (2 ^ 53) in let less : f64 := b_of_int 53 1024 prec53 emax1024 (2 ^ 53 - 1) in
  is_finite big = true /\ is_finite less = true /\ Beqb less big = false /\
  match f_add f64F big (f_one f64F), f_add f64F less (f_one f64F) with Done a, Done b => Beqb (a : f64) big && Beqb (b : f64) big | _, _ => false end = true.
Proof. vm_compute. repeat split. Qed.
