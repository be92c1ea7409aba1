(** The operators of [Fraction] (src/num_traits.rs:321-357) that the value types do not use: [Div],
    [Rem], and every operator with an integer on the right. The algorithms are those of
    num-rational 0.4, as in M_Ratio.v; the assigning forms compute the same. *)
From Coq Require Import ZArith.
From Verif Require Import M_Outcome M_Ints M_Ratio.
Local Open Scope Z_scope.

Section RatioOps.
  Variable oc : bool.
  Variable t : ity.

  (** [Div]/[DivAssign] (356): cross-cancel, multiply, reduce. *)
  Definition r_div (x y : ratio) : outcome ratio :=
    let! gac := r_gcd oc t (numer x) (numer y) in
    let! gbd := r_gcd oc t (denom x) (denom y) in
    let! a := p_div t (numer x) gac in
    let! d := p_div t (denom y) gbd in
    let! n := p_mul oc t a d in
    let! b := p_div t (denom x) gbd in
    let! c := p_div t (numer y) gac in
    let! m := p_mul oc t b c in
    r_new oc t n m.
  (** [Rem]/[RemAssign] (357): as [Add], with [%] on the numerators. *)
  Definition r_rem : ratio -> ratio -> outcome ratio := r_addsub oc t (p_rem t).

  (** [Fraction op I] (337-349): the integer is made a fraction with [Ratio::new(rhs, 1)]. *)
  Definition with_int (op : ratio -> ratio -> outcome ratio) (x : ratio) (n : Z) : outcome ratio :=
    let! y := r_new oc t n 1 in op x y.
  Definition r_add_int : ratio -> Z -> outcome ratio := with_int (r_add oc t).
  Definition r_sub_int : ratio -> Z -> outcome ratio := with_int (r_sub oc t).
  Definition r_mul_int : ratio -> Z -> outcome ratio := with_int (r_mul oc t).
  Definition r_div_int : ratio -> Z -> outcome ratio := with_int r_div.
  Definition r_rem_int : ratio -> Z -> outcome ratio := with_int r_rem.
End RatioOps.
