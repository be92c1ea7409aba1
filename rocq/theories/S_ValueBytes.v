(** What bytes mean, from the width of a type. *)
From Coq Require Import String Ascii ZArith List Bool SpecFloat.
From Flocq Require Import Core BinarySingleNaN.
From Verif Require Import M_Outcome M_Ints M_Ratio M_Float M_Value M_Types M_Qualifier M_Search M_Stat M_StatMap M_HashMap M_Registry M_Serde M_Bytes M_ValueBytes
  S_StatMap S_Demo S_Serde S_Bytes S_Totals S_ValueSerde.
Import ListNotations.
Local Open Scope Z_scope.

(** What is written is read as what was written, whatever follows, and no proper beginning of it
    is read as anything. *)
Definition bback {A} (L : bleaf A) (x : A) : Prop := spells (btake L) (bput L x) x.

(** The bytes of an integer: one byte, in two's complement, for the types of eight bits; else as
    many groups of seven bits as the type has room for, the last one holding what is left. Signed
    numbers alternate: 0, -1, 1, -2, ... *)
Definition groups (t : ity) : nat := Z.to_nat ((bits t + 6) / 7).
Definition last_group (t : ity) : Z := 2 ^ (bits t - 7 * ((bits t + 6) / 7 - 1)) - 1.
Definition int_bytes (t : ity) (l : bytes) (n : Z) : Prop :=
  if bits t =? 8 then exists b, l = [b] /\ small t n /\ n mod 256 = b
  else exists m, varint (groups t) (last_group t) l m /\
       if signed t then (0 <= n /\ m = 2 * n) \/ (n < 0 /\ m = - 2 * n - 1) else m = n.

(** Numbers to base 256, least first. *)
Definition little (l : bytes) : Z := fold_right (fun b n => b + 256 * n) 0 l.
(** The number with the bits [n], in IEEE 754's format of [mw] bits of mantissa and [ew] of
    exponent: [S754_finite s m e] is [m * 2 ^ e] with sign [s]. *)
Definition ieee (mw ew n : Z) : spec_float :=
  let m := n mod 2 ^ mw in
  let e := (n / 2 ^ mw) mod 2 ^ ew in
  let s := 2 ^ (mw + ew) <=? n in
  let emin := 2 - 2 ^ (ew - 1) - mw in
  if e =? 0 then (if m =? 0 then S754_zero s else S754_finite s (Z.to_pos m) emin)
  else if e =? 2 ^ ew - 1 then (if m =? 0 then S754_infinity s else S754_nan)
  else S754_finite s (Z.to_pos (m + 2 ^ mw)) (e + emin - 1).

(** Every operand of an operation is read as what was written. *)
Definition op_bback {S : StatValue} (La : bleaf (addT S)) (Lm : bleaf (mulT S)) (Lb : bleaf (bitT S)) (Lr : bleaf (boundsT S)) (Lz : bleaf (baseT S)) (o : stat_op S) : Prop :=
  match o with
  | OAdd x => bback La x | OMul x => bback Lm x | OOr x => bback Lb x | ONot x => bback Lb x
  | OMin x => bback Lr x | OMax x => bback Lr x | OBase x => bback Lz x
  end.
Definition once_bop {A} (LA : bleaf A) (o : stat_op (statOnce A)) : Prop :=
  match o with OOr x | OBase x => bback LA x | _ => True end.
Definition prio_bop {A} (LA : bleaf A) (d : A) (last : bool) (o : stat_op (prioritized A d last)) : Prop :=
  match o with OBase x => bback LA (p_value x) /\ small I32 (p_priority x) | _ => True end.
(** The types of the crate return on all input and hand on the bytes they leave. *)
Definition tame {A} (L : bleaf A) : Prop := returns (btake L) /\ hands_on (btake L).

(** Examples *)
Definition bfrac : bleaf (quad Z ratio) := bleaf_quad (bleaf_int I8) (bleaf_ratio (bleaf_int I8)).
Definition got {A} (r : res (A * bytes)) : option A := match r with Done (Some p) => Some (fst p) | _ => None end.
Definition f32_of (s : bool) (m : positive) (e : Z) : f32 := binary_normalize 24 128 prec24 emax128 mode_NE (cond_Zopp s (Zpos m)) e false.
Definition the_float (x : f32) : spec_float := B2SF x.
Definition demo_bleaf (t : demo_v) : bleaf (val (VT demo t)) :=
  match t return bleaf (val (VT demo t)) with VNum => bleaf_quad (bleaf_int I32) (bleaf_int I32) | VBool => bleaf_bool end.
Definition derivedB : BCodec demo intQ := bleaf_codec demo intQ (fun _ => true) (fun _ => true) demo_bleaf (bleaf_int I32).
Definition derived_bytes (l : list dop) : option bytes := match put_map saveN derivedB (demo_run l) with Done o => o | _ => None end.
Definition derived_map (bs : bytes) : map_t demo intQ := match take_map derivedB (WReg demo_reg) bs with Done (Some p) => fst p | _ => [] end.
