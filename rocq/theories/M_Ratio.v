(** [Fraction<I>] (src/num_traits.rs:283-388), a newtype of [num_rational::Ratio<I>] (0.4).
    The dependency's algorithms are followed operation by operation with their overflow
    behaviour, except that [gcd] is the mathematical gcd and [Ratio::cmp] cross multiplication;
    the algorithms themselves are in [M_RatioAlgo] and proved to agree (C19_gcd_algorithm,
    C19_order_algorithm). *)
From Coq Require Import ZArith List Bool.
From Verif Require Import M_Outcome M_Ints.
Local Open Scope Z_scope.

Record ratio : Type := Frac { numer : Z; denom : Z }.

Section Ratio.
  Variable oc : bool.
  Variable t : ity.

  (** num_integer [Integer::gcd]: overflows only when the result would be [2^(bits-1)]. *)
  Definition r_gcd (a b : Z) : outcome Z := chk oc t (Z.gcd a b).

  (** num_integer [gcd_lcm]: [(self * (other / gcd)).abs()], zero if both are zero. *)
  Definition r_lcm (a b : Z) : outcome Z :=
    if (a =? 0) && (b =? 0) then Done 0
    else
      let! g := r_gcd a b in
      let! q := p_div t b g in
      let! p := p_mul oc t a q in
      if signed t then p_abs oc t p else Done p.

  (** num_rational [Ratio::reduce]. *)
  Definition r_reduce (r : ratio) : outcome ratio :=
    if denom r =? 0 then Panics PDivZero
    else if numer r =? 0 then Done (Frac 0 1)
    else if numer r =? denom r then Done (Frac 1 1)
    else
      let! g := r_gcd (numer r) (denom r) in
      let! n := p_div t (numer r) g in
      let! d := p_div t (denom r) g in
      if d <? 0 then
        let! n' := p_sub oc t 0 n in
        let! d' := p_sub oc t 0 d in
        Done (Frac n' d')
      else Done (Frac n d).

  (** [Fraction::new] (src/num_traits.rs:308-310) = [Ratio::new]. *)
  Definition r_new (n d : Z) : outcome ratio := r_reduce (Frac n d).

  (** [Fraction::new_raw(x, 1)] (src/num_traits.rs:312-314); [Int::into_fraction] (118-120). *)
  Definition r_int (n : Z) : ratio := Frac n 1.

  (** [Add]/[AddAssign] and [Sub]/[SubAssign] (src/num_traits.rs:321-354):
      [a/b op c/d = (a*lcm/b op c*lcm/d)/lcm]. *)
  Definition r_addsub (op : Z -> Z -> outcome Z) (x y : ratio) : outcome ratio :=
    if denom x =? denom y then
      let! n := op (numer x) (numer y) in
      r_new n (denom y)
    else
      let! l := r_lcm (denom x) (denom y) in
      let! qx := p_div t l (denom x) in
      let! nx := p_mul oc t (numer x) qx in
      let! qy := p_div t l (denom y) in
      let! ny := p_mul oc t (numer y) qy in
      let! n := op nx ny in
      r_new n l.
  Definition r_add : ratio -> ratio -> outcome ratio := r_addsub (p_add oc t).
  Definition r_sub : ratio -> ratio -> outcome ratio := r_addsub (p_sub oc t).

  (** [Mul]/[MulAssign] (src/num_traits.rs:355): cross-cancel, multiply, reduce. *)
  Definition r_mul (x y : ratio) : outcome ratio :=
    let! gad := r_gcd (numer x) (denom y) in
    let! gbc := r_gcd (denom x) (numer y) in
    let! a := p_div t (numer x) gad in
    let! c := p_div t (numer y) gbc in
    let! n := p_mul oc t a c in
    let! b := p_div t (denom x) gbc in
    let! d := p_div t (denom y) gad in
    let! m := p_mul oc t b d in
    r_new n m.

  (** [Ord]: see the file comment. *)
  Definition r_cmp (x y : ratio) : comparison := Z.compare (numer x * denom y) (numer y * denom x).
  Definition r_ltb (x y : ratio) : bool := match r_cmp x y with Lt => true | _ => false end.
  (** [Float::min]/[max] for Fraction (src/num_traits.rs:365-371) = [Ord::min]/[Ord::max]. *)
  Definition r_min (x y : ratio) : ratio := if r_ltb y x then y else x.
  Definition r_max (x y : ratio) : ratio := if r_ltb y x then x else y.

  (** [Ratio::trunc]; [to_integer] is its numerator (src/num_traits.rs:126-128, 381-383). *)
  Definition r_trunc (x : ratio) : outcome ratio := omap r_int (p_div t (numer x) (denom x)).
  Definition r_to_integer (x : ratio) : outcome Z := p_div t (numer x) (denom x).

  (** [Ratio::floor] (src/num_traits.rs:373-375). *)
  Definition r_floor (x : ratio) : outcome ratio :=
    if r_ltb x (r_int 0) then
      let! a := p_sub oc t (numer x) (denom x) in
      let! b := p_add oc t a 1 in
      omap r_int (p_div t b (denom x))
    else omap r_int (p_div t (numer x) (denom x)).

  (** [Ratio::ceil] (src/num_traits.rs:377-379). *)
  Definition r_ceil (x : ratio) : outcome ratio :=
    if r_ltb x (r_int 0) then omap r_int (p_div t (numer x) (denom x))
    else
      let! a := p_add oc t (numer x) (denom x) in
      let! b := p_sub oc t a 1 in
      omap r_int (p_div t b (denom x)).

  (** [Ratio::round] (src/num_traits.rs:385-387): compares the unsigned fractional part with 1/2. *)
  Definition r_round (x : ratio) : outcome ratio :=
    let! fn := p_rem t (numer x) (denom x) in
    let fract := Frac fn (denom x) in
    let! f := (if r_ltb fract (r_int 0) then r_sub (r_int 0) fract else Done fract) in
    let! half := p_div t (denom f) 2 in
    let! bound := (if Z.even (denom f) then Done half else p_add oc t half 1) in
    let! tr := r_trunc x in
    if bound <=? numer f then
      if r_ltb x (r_int 0) then r_sub tr (r_int 1) else r_add tr (r_int 1)
    else Done tr.
End Ratio.
