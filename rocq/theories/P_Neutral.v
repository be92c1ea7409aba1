(** C12 for floats, fractions and integers with float multipliers: the default is neutral, modifiers
    can be split off. *)
From Coq Require Import ZArith List Bool.
From Flocq Require Import Core BinarySingleNaN.
From Verif Require Import M_Outcome M_Ints M_Ratio M_Float M_Value M_Types S_Ratio S_Types S_Float S_Totals S_ValueSerde S_FloatTotals S_Neutral
  L_Neutral L_Neutral2.
Import ListNotations.
Local Open Scope Z_scope.

(** Joining the default changes a value of a float stat exactly if it is not settled: [-0.0] becomes
    [0.0], bounds that are NaN or infinitely wide become [MIN] and [MAX]. Operations on settled values
    may be split off, whatever their operands (NaN and the infinities included). *)
Theorem C12_StatFloat :
  forall prec emax Hp He, let S := statFloat (binF prec emax Hp He) in
  (forall v, (sv_join S v (sv_default S) = Done v <-> settled_float v) /\
             (sv_join S (sv_default S) v = Done v <-> settled_float v)) /\
  splittable S settled_float (fun _ => True).
Proof. exact C12_StatFloat_proof. Qed.
Print Assumptions C12_StatFloat.
Example C12_StatFloat_case :
  settled_float (Quad (f32_int 3) (f32_int (-1)) (B754_zero true) (B754_infinity false)) /\
  ~ settled_float (Quad (B754_zero true) (f32_int (-1)) (f32_int 3) (f32_int 3)).
Proof. split; [repeat split; discriminate|]. intros [H _]. now apply H. Qed.

Theorem C12_StatFloatAdditive :
  forall prec emax Hp He, let S := statFloatAdditive (binF prec emax Hp He) in
  (forall v, (sv_join S v (sv_default S) = Done v <-> settled_additive v) /\
             (sv_join S (sv_default S) v = Done v <-> settled_additive v)) /\
  splittable S settled_additive (fun _ => True).
Proof. exact C12_StatFloatAdditive_proof. Qed.
Print Assumptions C12_StatFloatAdditive.
Example C12_StatFloatAdditive_case :
  settled_additive (Quad (f32_int 3) (f32_int (-1)) (f32_half 7) (f32_half (-1))).
Proof. repeat split; discriminate. Qed.

Theorem C12_StatMult :
  forall prec emax Hp He, let S := statMult (binF prec emax Hp He) in
  (forall v, (sv_join S v (sv_default S) = Done v <-> settled_mult v) /\
             (sv_join S (sv_default S) v = Done v <-> settled_mult v)) /\
  splittable S settled_mult (fun _ => True).
Proof. exact C12_StatMult_proof. Qed.
Print Assumptions C12_StatMult.
Example C12_StatMult_case :
  settled_mult (@Tri f32F (f32_int (-1)) (f32_half 7) B754_nan) /\ ~ settled_mult (@Tri f32F (f32_int (-1)) B754_nan (f32_int 1)).
Proof. split; [repeat split; discriminate|]. intros [_ [H _]]. now apply H. Qed.

(** Every value of a float stat that arises from the default and from bases other than [-0.0], by any
    operations and joins, is settled. *)
Theorem C12_float_built :
  forall prec emax Hp He, let F := binF prec emax Hp He in
  (forall (h : history (statFloat F)) v,
     operands (op_of (S := statFloat F) (fun _ => True) (fun _ => True) (fun _ => True) unsigned_zero) h ->
     value_of h = Done v -> settled_float v) /\
  (forall (h : history (statFloatAdditive F)) v,
     operands (op_of (S := statFloatAdditive F) (fun _ => True) (fun _ => True) (fun _ => True) unsigned_zero) h ->
     value_of h = Done v -> settled_additive v) /\
  (forall (h : history (statMult F)) v, value_of h = Done v -> settled_mult v).
Proof. exact C12_float_built_proof. Qed.
Print Assumptions C12_float_built.
Example C12_float_built_case :
  let S := statFloat f32F in
  operands (op_of (S := S) (fun _ => True) (fun _ => True) (fun _ => True) unsigned_zero)
    (Applied (Joined (Applied (@FromBase S (f32_int 3)) (@OAdd S (f32_int (-3)))) (Applied (@FromDefault S) (@OAdd S (B754_zero true)))) (@OMax S B754_nan)).
Proof. repeat split; discriminate. Qed.

(** A base of [-0.0] is not: joining the default makes it [0.0] (an equal number with other bits). *)
Theorem C12_float_refuted :
  forall prec emax Hp He, let F := binF prec emax Hp He in
  let v := sv_from_base (statFloat F) (B754_zero true) in
  sv_join (statFloat F) v (sv_default _) = Done (sv_from_base (statFloat F) (B754_zero false)) /\
  ~ default_neutral (statFloat F) (fun v => exists h : history (statFloat F), value_of h = Done v).
Proof. exact C12_float_refuted_proof. Qed.
Print Assumptions C12_float_refuted.

Theorem C12_StatIntFloatMul :
  forall prec emax Hp He oc t R, let S := statIntFloatMul prec emax Hp He oc t R in
  default_neutral S (quad_ok (prim t) (fun _ => True)) /\
  splittable S (quad_ok (prim t) (fun _ => True)) (op_ok (S := S) (z_ok (prim t)) (fun _ => True) (z_ok (prim t))).
Proof. exact C12_StatIntFloatMul_proof. Qed.
Print Assumptions C12_StatIntFloatMul.
Example C12_StatIntFloatMul_case :
  quad_ok (prim I8) (fun _ => True) (Quad 100 (-128) 7 (f32_half 3)) /\
  (let S := statIntFloatMul 24 128 prec24 emax128 true I8 Round in
   write_to (@OAdd S 28) (Quad 100 (-128) 7 (f32_half 3)) = Panics POverflow /\
   (let! w := into_stat (@OAdd S 28) in sv_join S (Quad 100 (-128) 7 (f32_half 3)) w) = Panics POverflow).
Proof. split; [repeat split; discriminate|]. split; vm_compute; reflexivity. Qed.

(** Fractions in lowest terms in place of floats. *)
Theorem C12_fraction :
  forall oc t, let F := fracF oc t in
  (default_neutral (statFloat F) (frac_quad_ok t) /\
   splittable (statFloat F) (frac_quad_ok t) (op_ok (S := statFloat F) (reduced t) (reduced t) (reduced t))) /\
  (default_neutral (statFloatAdditive F) (frac_quad_ok t) /\
   splittable (statFloatAdditive F) (frac_quad_ok t) (op_ok (S := statFloatAdditive F) (reduced t) (reduced t) (reduced t))) /\
  (default_neutral (statMult F) (frac_tri_ok oc t) /\
   splittable (statMult F) (frac_tri_ok oc t) (op_ok (S := statMult F) (fun _ => True) (reduced t) (reduced t))).
Proof. exact C12_fraction_proof. Qed.
Print Assumptions C12_fraction.
Example C12_fraction_case :
  let S := statFloat (fracF true I8) in
  frac_quad_ok I8 (Quad (Frac 3 2) (Frac (-128) 1) (Frac 127 2) (Frac 1 127)) /\
  (let! w := into_stat (@OAdd S (Frac 1 2)) in sv_join S (Quad (Frac 3 2) (Frac (-128) 1) (Frac 127 2) (Frac 1 127)) w)
  = Done (Quad (Frac 2 1) (Frac (-128) 1) (Frac 127 2) (Frac 1 127)).
Proof. split; [repeat split; discriminate|vm_compute; reflexivity]. Qed.
