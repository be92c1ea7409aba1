(** Memory layout of value types and the byte level view of [Buffer] (src/buffer.rs). *)
From Coq Require Import ZArith List Bool.
From Verif Require Import M_Outcome M_Ints M_Stat.
Import ListNotations.
Local Open Scope Z_scope.

(** Size and alignment of a Rust type. *)
Record layout : Type := Lay { l_size : Z; l_align : Z }.

Definition round_up (n a : Z) : Z := (n + a - 1) / a * a.

(** [#[repr(C)]]: fields in declaration order, each at the next multiple of its alignment. *)
Fixpoint c_end (off : Z) (fs : list layout) : Z :=
  match fs with
  | [] => off
  | f :: fs' => c_end (round_up off (l_align f) + l_size f) fs'
  end.
Definition c_align (forced : Z) (fs : list layout) : Z :=
  fold_right (fun f a => Z.max (l_align f) a) forced fs.
(** A struct; [forced] is 8 for [#[repr(C, align(8))]] and 1 for plain [#[repr(C)]]. *)
Definition c_struct (forced : Z) (fs : list layout) : layout :=
  let a := c_align forced fs in Lay (round_up (c_end 0 fs) a) a.
(** A data carrying enum with one payload: a C [int] tag followed by the union of the payloads. *)
Definition c_enum (forced : Z) (payload : layout) : layout := c_struct forced [Lay 4 4; payload].

(** Primitive types on a 64-bit target. [a128] is the alignment of 128-bit integers, 8 or 16
    depending on the compiler version. *)
Definition lay_int (a128 : Z) (t : ity) : layout :=
  match bits t with
  | 128 => Lay 16 a128
  | b => Lay (b / 8) (b / 8)
  end.
Definition lay_f32 : layout := Lay 4 4.
Definition lay_f64 : layout := Lay 8 8.
Definition lay_bool : layout := Lay 1 1.
Definition lay_phantom : layout := Lay 0 1.
(** [Ratio<T>] (num-rational) and [Fraction<T>] (src/num_traits.rs:289-291): two fields of one type. *)
Definition lay_ratio (t : layout) : layout := Lay (2 * l_size t) (l_align t).

(** The provided value types. [Wrapping<T>] and [Saturating<T>] are [repr(transparent)]. *)
Definition lay_StatInt (t : layout) : layout := c_struct 8 [t; t; t; t].            (* types/int_ratio.rs:14-20 *)
Definition lay_StatIntFraction (t prim : layout) : layout :=                        (* types/int_ratio.rs:84-91 *)
  c_struct 8 [t; t; t; lay_ratio prim; lay_phantom].
Definition lay_StatIntFloatMul (t f : layout) : layout :=                           (* types/int_ratio.rs:159-166 *)
  c_struct 8 [t; t; t; f; lay_phantom].
Definition lay_StatIntPercentAdditive (t : layout) : layout :=                      (* types/int_pct.rs:14-21 *)
  c_struct 8 [t; t; t; t; lay_phantom].
Definition lay_StatIntPercent (t prim : layout) : layout :=                         (* types/int_pct.rs:92-99 *)
  c_struct 8 [t; lay_ratio prim; t; t; lay_phantom].
Definition lay_StatFloat (f : layout) : layout := c_struct 8 [f; f; f; f].          (* types/float.rs:8-14, 76-82 *)
Definition lay_StatMult (f : layout) : layout := c_struct 8 [f; f; f].              (* types/float.rs:146-151 *)
Definition lay_StatFlags (t : layout) : layout := c_struct 8 [t; t].                (* types/flags.rs:11-15 *)
Definition lay_StatExists : layout := c_struct 8 [lay_bool].                        (* types/singleton.rs:10-11 *)
Definition lay_StatOnce (t : layout) : layout := c_enum 8 t.                        (* types/singleton.rs:42-48 *)
Definition lay_Prioritized (t : layout) : layout := c_struct 1 [t; Lay 4 4].        (* types/prioritized.rs:11-15 *)

(** A type together with its values as bytes; [None] is an uninitialised (padding) byte. *)
Definition byte : Type := option Z.
Record repr (A : Type) : Type := Repr {
  r_lay : layout;
  r_enc : A -> list byte;
  r_dec : list byte -> A
}.
Arguments r_lay {A}.
Arguments r_enc {A}.
Arguments r_dec {A}.

Definition check {A : Type} (r : repr A) : outcome unit := validate (l_size (r_lay r)) (l_align (r_lay r)).

(** A typed access at address [p] into an allocation of [len] bytes starting at [p]: defined if
    the address is a multiple of the alignment and the value lies within the allocation. *)
Definition access_ok (p len : Z) (l : layout) : bool := (p mod l_align l =? 0) && (l_size l <=? len).
Definition store {A : Type} (r : repr A) (p : Z) (mem : list byte) (v : A) : outcome (list byte) :=
  if access_ok p (Z.of_nat (length mem)) (r_lay r)
  then Done (r_enc r v ++ skipn (length (r_enc r v)) mem)
  else UB.
Definition load {A : Type} (r : repr A) (p : Z) (mem : list byte) : outcome A :=
  if access_ok p (Z.of_nat (length mem)) (r_lay r)
  then Done (r_dec r (firstn (Z.to_nat (l_size (r_lay r))) mem))
  else UB.

(** [Buffer::from] (58-63): the local [[MaybeUninit<u8>; 24]] lives at address [local]; its
    bytes are then copied into the returned buffer. *)
Definition raw_from {A : Type} (r : repr A) (local : Z) (v : A) : outcome (list byte) :=
  let! _ := check r in
  store r local (repeat None 24) v.
(** [as_ref] (40-43), [into] (52-55), [read_move] (70-73) of a buffer at address [p]. *)
Definition raw_read {A : Type} (r : repr A) (p : Z) (b : list byte) : outcome A :=
  let! _ := check r in load r p b.
(** [as_mut] (46-49) and a write through the reference. *)
Definition raw_mut {A : Type} (r : repr A) (p : Z) (b : list byte) (f : A -> A) : outcome (list byte) :=
  let! _ := check r in
  let! v := load r p b in
  store r p b (f v).
