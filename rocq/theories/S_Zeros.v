(** Floats whose [min] and [max] keep std's contract in any way, also differently in each call. *)
From Coq Require Import ZArith List.
From Flocq Require Import Core BinarySingleNaN.
From Verif Require Import M_Outcome M_Ints M_Float M_Value M_Types S_Types S_Totals.
Import ListNotations.
Local Open Scope Z_scope.

Section Zeros.
  Variables prec emax : Z.
  Context (Hp : Prec_gt_0 prec) (He : Prec_lt_emax prec emax).
  Let bf := binary_float prec emax.

  (** [x == y], or both are NaN. *)
  Definition same (x y : bf) : Prop := Beqb x y = true \/ is_nan x = true /\ is_nan y = true.

  (** std on [min]: a NaN is ignored; else the result is one of the operands, and no greater than either.
      On [max] alike. *)
  Definition keeps_min (mn : bf -> bf -> bf) : Prop := forall x y,
    (is_nan x = true -> mn x y = y) /\ (is_nan y = true -> is_nan x = false -> mn x y = x) /\
    (is_nan x = false -> is_nan y = false ->
     (mn x y = x \/ mn x y = y) /\ Bleb (mn x y) x = true /\ Bleb (mn x y) y = true).
  Definition keeps_max (mx : bf -> bf -> bf) : Prop := forall x y,
    (is_nan x = true -> mx x y = y) /\ (is_nan y = true -> is_nan x = false -> mx x y = x) /\
    (is_nan x = false -> is_nan y = false ->
     (mx x y = x \/ mx x y = y) /\ Bleb x (mx x y) = true /\ Bleb y (mx x y) = true).

  Record picks : Type := Picks {
    p_min : bf -> bf -> bf; p_max : bf -> bf -> bf;
    p_min_ok : keeps_min p_min; p_max_ok : keeps_max p_max
  }.

  (** The floats with these [min] and [max]. *)
  Definition picky (C : picks) : FloatT := {|
    fcar := bf;
    f_zero := f_zero (binF prec emax Hp He); f_one := f_one (binF prec emax Hp He);
    f_minv := f_minv (binF prec emax Hp He); f_maxv := f_maxv (binF prec emax Hp He);
    f_add := f_add (binF prec emax Hp He); f_sub := f_sub (binF prec emax Hp He); f_mul := f_mul (binF prec emax Hp He);
    f_min := p_min C; f_max := p_max C;
    f_floor := f_floor (binF prec emax Hp He); f_ceil := f_ceil (binF prec emax Hp He);
    f_trunc := f_trunc (binF prec emax Hp He); f_round := f_round (binF prec emax Hp He);
    f_ltb := f_ltb (binF prec emax Hp He)
  |}.

  (** A float stat: the same code over any floats. [calls] and [joins] are its methods over [picky C]. *)
  Section Reached.
    Variable S : StatValue.
    Variable calls : picks -> stat_op S -> val S -> outcome (val S).
    Variable joins : picks -> val S -> val S -> outcome (val S).
    (** [v] may come out of [h] when each call picks for itself. *)
    Inductive reached : history S -> val S -> Prop :=
    | by_default : reached FromDefault (sv_default S)
    | by_base b : reached (FromBase b) (sv_from_base S b)
    | by_call C h o v w : reached h v -> calls C o v = Done w -> reached (Applied h o) w
    | by_join C h k v u w : reached h v -> reached k u -> joins C v u = Done w -> reached (Joined h k) w.
  End Reached.

  Let F := binF prec emax Hp He.
  Definition float_calls (C : picks) (o : stat_op (statFloat F)) (v : quad bf bf) : outcome (quad bf bf) :=
    let S := statFloat (picky C) in
    write_to (S := S)
      match o with OAdd x => @OAdd S x | OMul x => @OMul S x | OOr x => @OOr S x | ONot x => @ONot S x
                 | OMin x => @OMin S x | OMax x => @OMax S x | OBase x => @OBase S x end v.
  Definition additive_calls (C : picks) (o : stat_op (statFloatAdditive F)) (v : quad bf bf) : outcome (quad bf bf) :=
    let S := statFloatAdditive (picky C) in
    write_to (S := S)
      match o with OAdd x => @OAdd S x | OMul x => @OMul S x | OOr x => @OOr S x | ONot x => @ONot S x
                 | OMin x => @OMin S x | OMax x => @OMax S x | OBase x => @OBase S x end v.
  (** A value of [StatMult] over other floats has the same fields. *)
  Definition to_picky (C : picks) (v : tri F) : tri (picky C) :=
    @Tri (picky C) (t_min v) (t_max v) (t_mult v).
  Definition of_picky (C : picks) (v : tri (picky C)) : tri F :=
    @Tri F (t_min v) (t_max v) (t_mult v).
  Definition mult_calls (C : picks) (o : stat_op (statMult F)) (v : tri F) : outcome (tri F) :=
    let S := statMult (picky C) in
    let! w := write_to (S := S)
      match o with OAdd x => @OAdd S x | OMul x => @OMul S x | OOr x => @OOr S x | ONot x => @ONot S x
                 | OMin x => @OMin S x | OMax x => @OMax S x | OBase x => @OBase S x end (to_picky C v) in
    Done (of_picky C w).
  Definition mult_joins (C : picks) (v u : tri F) : outcome (tri F) :=
    let! w := sv_join (statMult (picky C)) (to_picky C v) (to_picky C u) in Done (of_picky C w).

  Definition reached_float : history (statFloat F) -> quad bf bf -> Prop :=
    reached (statFloat F) float_calls (fun C => sv_join (statFloat (picky C))).
  Definition reached_additive : history (statFloatAdditive F) -> quad bf bf -> Prop :=
    reached (statFloatAdditive F) additive_calls (fun C => sv_join (statFloatAdditive (picky C))).
  Definition reached_mult : history (statMult F) -> tri F -> Prop :=
    reached (statMult F) mult_calls mult_joins.

  (** The outcomes [a] and [b] are numbers that are [same]. *)
  Definition same_worth (a b : outcome bf) : Prop :=
    exists x y, a = Done x /\ b = Done y /\ same x y.
End Zeros.
Arguments same {prec emax}.
Arguments keeps_min {prec emax}.
Arguments keeps_max {prec emax}.
Arguments Picks {prec emax}.
Arguments p_min {prec emax}.
Arguments p_max {prec emax}.
Arguments same_worth {prec emax}.

(** Which of two zeros: the second. *)
Section Second.
  Variables prec emax : Z.
  Definition second_min (x y : binary_float prec emax) : binary_float prec emax :=
    if is_nan y then x else if is_nan x then y else if Bltb x y then x else y.
  Definition second_max (x y : binary_float prec emax) : binary_float prec emax :=
    if is_nan y then x else if is_nan x then y else if Bltb y x then x else y.
End Second.
