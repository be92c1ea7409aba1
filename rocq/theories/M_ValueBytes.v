(** What [derive(Serialize, Deserialize)] makes of the types of this crate in postcard, a byte
    format that does not describe itself: the value types (src/types), [Fraction]
    (src/num_traits.rs:283-291), [StatOperation] and [Unsupported] (src/operations.rs:5-14, 41-42),
    [StatCache] (src/cache.rs:22-27), [StatEntity] (src/querier.rs:23-25). M_Bytes.v has stat maps,
    M_ValueSerde.v the same types as documents.

    postcard 1: a struct is its fields in order, a newtype its content, an enum the number of the
    variant as a varint [u32] and the content; unit structs and [PhantomData] are nothing. *)
From Coq Require Import String Ascii ZArith List Bool.
From Flocq Require Import Core BinarySingleNaN.
From Flocq Require Binary Bits.
From Verif Require Import M_Outcome M_Ints M_Ratio M_Float M_Value M_Types M_Qualifier M_Stat M_StatMap M_HashMap M_Pair M_Defaults M_Querier M_Poison M_Registry M_Serde M_Bytes.
Import ListNotations.
Local Open Scope Z_scope.

(** [Serialize] and [Deserialize] of a type. *)
Record bleaf (A : Type) : Type := BLeaf { bput : A -> bytes; btake : reader A }.
Arguments BLeaf {A}. Arguments bput {A}. Arguments btake {A}.

(** *** Integers: [u8] and [i8] are one byte, the others varints, the signed ones by zigzag.
    serde's [Wrapping<T>] and [Saturating<T>] are written and read as [T]. *)
Definition int_len (t : ity) : nat :=
  match t with U8 | I8 => 1 | U16 | I16 => 3 | U32 | I32 => 5 | U64 | I64 | Usize | Isize => 10 | U128 | I128 => 19 end.
Definition int_top (t : ity) : Z :=
  match t with U8 | I8 => 255 | U16 | I16 => 3 | U32 | I32 => 15 | U64 | I64 | Usize | Isize => 1 | U128 | I128 => 3 end.
Definition zigzag (n : Z) : Z := if n <? 0 then - 2 * n - 1 else 2 * n.
Definition unzigzag (n : Z) : Z := if Z.even n then n / 2 else - ((n + 1) / 2).
Definition take_byte : reader Z := fun bs => match bs with b :: bs' => ok (b, bs') | [] => err end.
Definition bleaf_int (t : ity) : bleaf Z :=
  match t with
  | U8 => BLeaf (fun n => [n]) take_byte
  | I8 => BLeaf (fun n => [n mod 256]) (fun bs => let? p := take_byte bs in ok (if fst p <? 128 then fst p else fst p - 256, snd p))
  | _ => if signed t
         then BLeaf (fun n => put_varint (int_len t) (zigzag n)) (fun bs => let? p := take_varint (int_len t) (int_top t) bs in ok (unzigzag (fst p), snd p))
         else BLeaf (put_varint (int_len t)) (take_varint (int_len t) (int_top t))
  end.

(** *** Floats: the bits, least byte first. [Binary] of Flocq has the payloads of NaNs, which are
    not modelled: a NaN is written with an arbitrary payload. *)
Fixpoint put_le (k : nat) (n : Z) : bytes := match k with O => [] | S k' => n mod 256 :: put_le k' (n / 256) end.
Fixpoint of_le (l : bytes) : Z := match l with [] => 0 | b :: l' => b + 256 * of_le l' end.
Definition take_le (k : nat) : reader Z := fun bs => let? p := take_bytes (Z.of_nat k) bs in ok (of_le (fst p), snd p).
Definition f32_bits (x : f32) : Z := Bits.bits_of_b32 (Binary.BSN2B 24 128 Bits.default_nan_pl32 x).
Definition f64_bits (x : f64) : Z := Bits.bits_of_b64 (Binary.BSN2B 53 1024 Bits.default_nan_pl64 x).
Definition f32_of_bits (n : Z) : f32 := Binary.B2BSN 24 128 (Bits.b32_of_bits n).
Definition f64_of_bits (n : Z) : f64 := Binary.B2BSN 53 1024 (Bits.b64_of_bits n).
Definition bleaf_f32 : bleaf f32 :=
  BLeaf (fun x => put_le 4 (f32_bits x)) (fun bs => let? p := take_le 4 bs in ok (f32_of_bits (fst p), snd p)).
Definition bleaf_f64 : bleaf f64 :=
  BLeaf (fun x => put_le 8 (f64_bits x)) (fun bs => let? p := take_le 8 bs in ok (f64_of_bits (fst p), snd p)).

Definition bleaf_bool : bleaf bool := BLeaf put_bool take_bool.
Definition bleaf_unit : bleaf unit := BLeaf (fun _ => []) (fun bs => ok (tt, bs)).
(** [Box<str>], [String] *)
Definition bleaf_str (utf8 : string -> bool) : bleaf string := BLeaf put_str (take_str utf8).
(** [Fraction]: the pair of numerator and denominator; only a zero denominator is refused. *)
Definition bleaf_ratio (I : bleaf Z) : bleaf ratio := {|
  bput := fun r => bput I (numer r) ++ bput I (denom r);
  btake := fun bs =>
    let? n := btake I bs in let? d := btake I (snd n) in
    if fst d =? 0 then err else ok (Frac (fst n) (fst d), snd d) |}.

(** *** Value types *)
(** Fields [addend min max mult], without or with the empty [rounding]: [StatInt],
    [StatIntFraction], [StatIntFloatMul] (src/types/int_ratio.rs:13-20, 81-91, 158-166),
    [StatFloat] and [StatFloatAdditive] (src/types/float.rs:7-14, 75-82). *)
Definition bleaf_quad {A M} (LA : bleaf A) (LM : bleaf M) : bleaf (quad A M) := {|
  bput := fun v => bput LA (addend v) ++ bput LA (vmin v) ++ bput LA (vmax v) ++ bput LM (mult v);
  btake := fun bs =>
    let? a := btake LA bs in let? lo := btake LA (snd a) in let? hi := btake LA (snd lo) in let? m := btake LM (snd hi) in
    ok (Quad (fst a) (fst lo) (fst hi) (fst m), snd m) |}.
(** Fields [addend mult min max rounding]: [StatIntPercentAdditive] and [StatIntPercent]
    (src/types/int_pct.rs:13-21, 89-99). *)
Definition bleaf_percent {A M} (LA : bleaf A) (LM : bleaf M) : bleaf (quad A M) := {|
  bput := fun v => bput LA (addend v) ++ bput LM (mult v) ++ bput LA (vmin v) ++ bput LA (vmax v);
  btake := fun bs =>
    let? a := btake LA bs in let? m := btake LM (snd a) in let? lo := btake LA (snd m) in let? hi := btake LA (snd lo) in
    ok (Quad (fst a) (fst lo) (fst hi) (fst m), snd hi) |}.
(** [StatMult] (src/types/float.rs:145-151) *)
Definition bleaf_mult {F : FloatT} (LF : bleaf (fcar F)) : bleaf (tri F) := {|
  bput := fun v => bput LF (t_min v) ++ bput LF (t_max v) ++ bput LF (t_mult v);
  btake := fun bs =>
    let? lo := btake LF bs in let? hi := btake LF (snd lo) in let? m := btake LF (snd hi) in
    ok (Tri (fst lo) (fst hi) (fst m), snd m) |}.
(** [StatFlags] (src/types/flags.rs:10-15) *)
Definition bleaf_flags {G : FlagsT} (LG : bleaf (gcar G)) : bleaf (flagsV G) := {|
  bput := fun v => bput LG (f_not v) ++ bput LG (f_or v);
  btake := fun bs => let? n := btake LG bs in let? o := btake LG (snd n) in ok (FlagsV (fst n) (fst o), snd o) |}.
(** [StatExists(bool)] (src/types/singleton.rs:9-11) *)
Definition bleaf_exists : bleaf bool := bleaf_bool.
(** [StatOnce] (src/types/singleton.rs:41-48) *)
Definition bleaf_once {A} (LA : bleaf A) : bleaf (once A) := {|
  bput := fun v => match v with
    | NotFound => put_u32 0
    | Found a => put_u32 1 ++ bput LA a
    | FoundMultiple => put_u32 2
    end;
  btake := fun bs =>
    let? i := take_u32 bs in
    match fst i with
    | 0 => ok (NotFound, snd i)
    | 1 => let? a := btake LA (snd i) in ok (Found (fst a), snd a)
    | 2 => ok (FoundMultiple, snd i)
    | _ => err
    end |}.
(** [Prioritized] (src/types/prioritized.rs:10-15) *)
Definition bleaf_prio {A} (LA : bleaf A) : bleaf (prio A) := {|
  bput := fun v => bput LA (p_value v) ++ bput (bleaf_int I32) (p_priority v);
  btake := fun bs => let? v := btake LA bs in let? p := btake (bleaf_int I32) (snd v) in ok (Prio (fst v) (fst p), snd p) |}.

(** *** [StatOperation] (src/operations.rs:5-14); [Unsupported] (41-42) has no variants. *)
Definition bleaf_none : bleaf Empty_set := BLeaf (fun e : Empty_set => match e return bytes with end) (fun bs => let? i := take_u32 bs in err).
Definition bleaf_op {S : StatValue} (La : bleaf (addT S)) (Lm : bleaf (mulT S)) (Lb : bleaf (bitT S)) (Lr : bleaf (boundsT S)) (Lz : bleaf (baseT S)) : bleaf (stat_op S) := {|
  bput := fun o => match o with
    | OAdd x => put_u32 0 ++ bput La x
    | OMul x => put_u32 1 ++ bput Lm x
    | OOr x => put_u32 2 ++ bput Lb x
    | ONot x => put_u32 3 ++ bput Lb x
    | OMin x => put_u32 4 ++ bput Lr x
    | OMax x => put_u32 5 ++ bput Lr x
    | OBase x => put_u32 6 ++ bput Lz x
    end;
  btake := fun bs =>
    let? i := take_u32 bs in
    match fst i with
    | 0 => let? x := btake La (snd i) in ok (OAdd (fst x), snd x)
    | 1 => let? x := btake Lm (snd i) in ok (OMul (fst x), snd x)
    | 2 => let? x := btake Lb (snd i) in ok (OOr (fst x), snd x)
    | 3 => let? x := btake Lb (snd i) in ok (ONot (fst x), snd x)
    | 4 => let? x := btake Lr (snd i) in ok (OMin (fst x), snd x)
    | 5 => let? x := btake Lr (snd i) in ok (OMax (fst x), snd x)
    | 6 => let? x := btake Lz (snd i) in ok (OBase (fst x), snd x)
    | _ => err
    end |}.

(** *** [StatCache] (src/cache.rs:22-27): its only field is skipped. *)
Definition bleaf_cache {P Q} : bleaf (pcache P Q) := BLeaf (fun _ => []) (fun bs => ok (PCache [] false, bs)).
Definition bleaf_entity : bleaf unit := bleaf_unit.

(** The implementations of a whole program, and of its flags. *)
Definition bleaf_codec (P : Prog) (Q : QFlag) (serial : sty P -> bool) (utf8 : string -> bool) (L : forall t, bleaf (val (VT P t))) (LQ : bleaf (qcar Q)) : BCodec P Q :=
  @Build_BCodec P Q serial utf8 (fun t v => ok (bput (L t) v)) (fun t => btake (L t)) (fun x => ok (bput LQ x)) (btake LQ).
