(** The algorithms of the dependencies that [M_Ratio] replaces by their mathematical meaning:
    num-integer's [gcd] (0.1, integer types) and num-rational's [Ord for Ratio] (0.4), followed
    step by step. The sources of the dependencies are not in /repo; they are transcribed from
    the published versions. *)
From Coq Require Import ZArith List Bool.
From Verif Require Import M_Outcome M_Ints M_Ratio.
Local Open Scope Z_scope.

(** [trailing_zeros] of a non-zero integer; the same for both signs in two's complement. *)
Fixpoint tz_pos (p : positive) : Z := match p with xO p => 1 + tz_pos p | _ => 0 end.
Definition tz (z : Z) : Z := match z with Z0 => 0 | Zpos p | Zneg p => tz_pos p end.
(** [m >>= m.trailing_zeros()] *)
Definition strip (z : Z) : Z := Z.shiftr z (tz z).

Section Algo.
  Variable oc : bool.
  Variable t : ity.

  (** The [while m != n] loop of [gcd]. *)
  Fixpoint gcd_loop (fuel : nat) (m n : Z) : outcome Z :=
    match fuel with
    | O => NoFuel
    | S f =>
        if m =? n then Done m
        else if n <? m then let! d := p_sub oc t m n in gcd_loop f (strip d) n
        else let! d := p_sub oc t n m in gcd_loop f m (strip d)
    end.
  (** [.abs()] exists for the signed types; the unsigned version does without. *)
  Definition s_abs (z : Z) : outcome Z := if signed t then p_abs oc t z else Done z.
  (** [Integer::gcd]. [<<] discards the bits that do not fit. *)
  Definition stein (a b : Z) : outcome Z :=
    if (a =? 0) || (b =? 0) then s_abs (Z.lor a b)
    else
      let shift := tz (Z.lor a b) in
      if signed t && ((a =? imin t) || (b =? imin t)) then s_abs (wrap t (Z.shiftl 1 shift))
      else
        let! m := s_abs a in
        let! n := s_abs b in
        let! g := gcd_loop (Z.to_nat (2 * bits t + 1)) (strip m) (strip n) in
        Done (wrap t (Z.shiftl g shift)).

  (** [Integer::div_mod_floor]: [div_rem], then one step down if the remainder and the divisor
      have different signs. *)
  Definition div_mod_floor (a b : Z) : outcome (Z * Z) :=
    let! d := p_div t a b in
    let! r := p_rem t a b in
    if ((0 <? r) && (b <? 0)) || ((r <? 0) && (0 <? b))
    then let! d' := p_sub oc t d 1 in let! r' := p_add oc t r b in Done (d', r')
    else Done (d, r).

  (** [<Ratio as Ord>::cmp] *)
  Fixpoint cf_cmp (fuel : nat) (x y : ratio) : outcome comparison :=
    match fuel with
    | O => NoFuel
    | S f =>
        if denom x =? denom y then
          let ord := numer x ?= numer y in
          Done (if denom x <? 0 then CompOpp ord else ord)
        else if numer x =? numer y then
          if numer x =? 0 then Done Eq
          else let ord := denom x ?= denom y in
               Done (if numer x <? 0 then ord else CompOpp ord)
        else
          let! p := div_mod_floor (numer x) (denom x) in
          let! q := div_mod_floor (numer y) (denom y) in
          match fst p ?= fst q with
          | Gt => Done Gt
          | Lt => Done Lt
          | Eq =>
              match snd p =? 0, snd q =? 0 with
              | true, true => Done Eq
              | true, false => Done Lt
              | false, true => Done Gt
              | false, false =>
                  let! c := cf_cmp f (Frac (denom x) (snd p)) (Frac (denom y) (snd q)) in
                  Done (CompOpp c)
              end
          end
    end.
End Algo.
