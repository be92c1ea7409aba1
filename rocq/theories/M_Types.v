(** The provided [StatValue] types (src/types/). [oc]: build with overflow checks. *)
From Coq Require Import ZArith List Bool.
From Flocq Require Import Core BinarySingleNaN.
From Verif Require Import M_Outcome M_Ints M_Ratio M_Float M_Value.
Local Open Scope Z_scope.

(** The four fields shared by the bounded types; [M] is the type of the multiplier. *)
Record quad (A M : Type) : Type := Quad { addend : A; vmin : A; vmax : A; mult : M }.
Arguments Quad {A M}.
Arguments addend {A M}.
Arguments vmin {A M}.
Arguments vmax {A M}.
Arguments mult {A M}.

(** [base.min(self.max).max(self.min)], the last step of every integer [eval]. *)
Definition i_bound {M} (v : quad Z M) (x : Z) : Z := i_max (i_min x (vmax v)) (vmin v).

(** Bounds methods of the integer types: [self.min = self.min.max(other)],
    [self.max = self.max.min(other)]. *)
Definition q_min {M} (v : quad Z M) (x : Z) : outcome (quad Z M) :=
  Done (Quad (addend v) (i_max (vmin v) x) (vmax v) (mult v)).
Definition q_max {M} (v : quad Z M) (x : Z) : outcome (quad Z M) :=
  Done (Quad (addend v) (vmin v) (i_min (vmax v) x) (mult v)).
(** [self.addend += other] of the integer types. *)
Definition q_add {M} (oc : bool) (T : intp) (v : quad Z M) (x : Z) : outcome (quad Z M) :=
  let! a := i_add oc T (addend v) x in Done (Quad a (vmin v) (vmax v) (mult v)).

(** [StatInt<T>] (src/types/int_ratio.rs:12-78). *)
Definition statInt (oc : bool) (T : intp) : StatValue := {|
  val := quad Z Z; outT := Z;
  addT := Z; mulT := Z; bitT := Empty_set; boundsT := Z; baseT := Z;
  (* 22-31 *)
  sv_default := Quad 0 (imin (i_ty T)) (imax (i_ty T)) 1;
  (* 37-42 *)
  sv_join := fun self other =>
    let! a := i_add oc T (addend self) (addend other) in
    let! m := i_mul oc T (mult self) (mult other) in
    Done (Quad a (i_max (vmin self) (vmin other)) (i_min (vmax self) (vmax other)) m);
  (* 44-46 *)
  sv_eval := fun self =>
    let! p := i_mul oc T (addend self) (mult self) in Done (i_bound self p);
  (* 54-68 *)
  sv_add := q_add oc T;
  sv_mul := fun self other =>
    let! m := i_mul oc T (mult self) other in
    Done (Quad (addend self) (vmin self) (vmax self) m);
  sv_not := noop; sv_or := noop;
  sv_min := q_min; sv_max := q_max;
  (* 70-77 *)
  sv_from_base := fun base => Quad base (imin (i_ty T)) (imax (i_ty T)) 1
|}.

(** [T::from_fraction(R::round(x))] (src/num_traits.rs:126-128, 166-168). *)
Definition round_to_int (oc : bool) (R : rounding) (t : ity) (x : ratio) : outcome Z :=
  let! r := round_with R (fracF oc t) x in r_to_integer t r.

(** [StatIntFraction<T, R>] (src/types/int_ratio.rs:80-155). *)
Definition statIntFraction (oc : bool) (T : intp) (R : rounding) : StatValue := {|
  val := quad Z ratio; outT := Z;
  addT := Z; mulT := ratio; bitT := Empty_set; boundsT := Z; baseT := Z;
  (* 93-103 *)
  sv_default := Quad 0 (imin (i_ty T)) (imax (i_ty T)) (r_int 1);
  (* 109-114 *)
  sv_join := fun self other =>
    let! a := i_add oc T (addend self) (addend other) in
    let! m := r_mul oc (i_ty T) (mult self) (mult other) in
    Done (Quad a (i_max (vmin self) (vmin other)) (i_min (vmax self) (vmax other)) m);
  (* 116-120 *)
  sv_eval := fun self =>
    let! v := r_mul oc (i_ty T) (mult self) (r_int (addend self)) in
    let! i := round_to_int oc R (i_ty T) v in
    Done (i_bound self i);
  (* 130-144 *)
  sv_add := q_add oc T;
  sv_mul := fun self other =>
    let! m := r_mul oc (i_ty T) (mult self) other in
    Done (Quad (addend self) (vmin self) (vmax self) m);
  sv_not := noop; sv_or := noop;
  sv_min := q_min; sv_max := q_max;
  (* 146-154 *)
  sv_from_base := fun base => Quad base (imin (i_ty T)) (imax (i_ty T)) (r_int 1)
|}.

(** [StatIntPercentAdditive<T, R, SCALE>] (src/types/int_pct.rs:11-84). *)
Definition statPctAdd (oc : bool) (T : intp) (R : rounding) (scale : Z) : StatValue := {|
  val := quad Z Z; outT := Z;
  addT := Z; mulT := Z; bitT := Empty_set; boundsT := Z; baseT := Z;
  (* 23-33 *)
  sv_default := Quad 0 (imin (i_ty T)) (imax (i_ty T)) 0;
  (* 39-44 *)
  sv_join := fun self other =>
    let! a := i_add oc T (addend self) (addend other) in
    let! m := i_add oc T (mult self) (mult other) in
    Done (Quad a (i_max (vmin self) (vmin other)) (i_min (vmax self) (vmax other)) m);
  (* 46-50; build_fraction: src/num_traits.rs:122-124, 162-164 *)
  sv_eval := fun self =>
    let! s := from_i64 (i_ty T) scale in
    let! m := i_add oc T (mult self) s in
    let! numer := i_mul oc T (addend self) m in
    let! f := r_new oc (i_ty T) numer s in
    let! base := round_to_int oc R (i_ty T) f in
    Done (i_bound self base);
  (* 58-73 *)
  sv_add := q_add oc T;
  sv_mul := fun self other =>
    let! m := i_add oc T (mult self) other in
    Done (Quad (addend self) (vmin self) (vmax self) m);
  sv_not := noop; sv_or := noop;
  sv_min := q_min; sv_max := q_max;
  (* 75-83 *)
  sv_from_base := fun base => Quad base (imin (i_ty T)) (imax (i_ty T)) 0
|}.

(** [StatIntPercent<T, R, SCALE>] (src/types/int_pct.rs:86-161). *)
Definition statPct (oc : bool) (T : intp) (R : rounding) (scale : Z) : StatValue := {|
  val := quad Z ratio; outT := Z;
  addT := Z; mulT := Z; bitT := Empty_set; boundsT := Z; baseT := Z;
  (* 101-111: the default addend is ONE *)
  sv_default := Quad 1 (imin (i_ty T)) (imax (i_ty T)) (r_int 1);
  (* 117-122: multipliers are added *)
  sv_join := fun self other =>
    let! a := i_add oc T (addend self) (addend other) in
    let! m := r_add oc (i_ty T) (mult self) (mult other) in
    Done (Quad a (i_max (vmin self) (vmin other)) (i_min (vmax self) (vmax other)) m);
  (* 124-128 *)
  sv_eval := fun self =>
    let! v := r_mul oc (i_ty T) (r_int (addend self)) (mult self) in
    let! i := round_to_int oc R (i_ty T) v in
    Done (i_bound self i);
  (* 136-150 *)
  sv_add := q_add oc T;
  sv_mul := fun self other =>
    let! s := from_i64 (i_ty T) scale in
    let! f := r_new oc (i_ty T) other s in
    let! m := r_mul oc (i_ty T) (mult self) f in
    Done (Quad (addend self) (vmin self) (vmax self) m);
  sv_not := noop; sv_or := noop;
  sv_min := q_min; sv_max := q_max;
  (* 152-160 *)
  sv_from_base := fun base => Quad base (imin (i_ty T)) (imax (i_ty T)) (r_int 1)
|}.

(** [StatIntFloatMul<T, F, R>] (src/types/int_ratio.rs:157-232) for [F] a binary float.
    The bounds [T: AsPrimitive<F>, F: AsPrimitive<T>] (182-183) hold for primitive [T]. *)
Section IntFloatMul.
  Variables prec emax : Z.
  Context (Hp : Prec_gt_0 prec) (He : Prec_lt_emax prec emax).
  Definition statIntFloatMul (oc : bool) (t : ity) (R : rounding) : StatValue :=
    let T := {| i_ty := t; i_flav := FPrim |} in
    let bf := binary_float prec emax in
    {|
      val := quad Z bf; outT := Z;
      addT := Z; mulT := bf; bitT := Empty_set; boundsT := Z; baseT := Z;
      (* 168-178 *)
      sv_default := Quad 0 (imin t) (imax t) (b_one prec emax Hp He);
      (* 188-193 *)
      sv_join := fun self other =>
        let! a := i_add oc T (addend self) (addend other) in
        Done (Quad a (i_max (vmin self) (vmin other)) (i_min (vmax self) (vmax other))
                (Bmult mode_NE (mult self) (mult other)));
      (* 195-199 *)
      sv_eval := fun self =>
        let x := Bmult mode_NE (b_of_int prec emax Hp He (addend self)) (mult self) in
        let! r := round_with R (binF prec emax Hp He) x in
        Done (i_bound self (b_to_int prec emax t r));
      (* 207-221 *)
      sv_add := q_add oc T;
      sv_mul := fun self other =>
        Done (Quad (addend self) (vmin self) (vmax self) (Bmult mode_NE (mult self) other));
      sv_not := noop; sv_or := noop;
      sv_min := q_min; sv_max := q_max;
      (* 223-231 *)
      sv_from_base := fun base => Quad base (imin t) (imax t) (b_one prec emax Hp He)
    |}.
End IntFloatMul.

Section FloatTypes.
  Variable F : FloatT.

  (** Bounds of the float types (src/types/float.rs:56-62, 126-132, 189-195). *)
  Definition fq_min (v : quad (fcar F) (fcar F)) (x : fcar F) : outcome (quad (fcar F) (fcar F)) :=
    Done (Quad (addend v) (f_max F (vmin v) x) (vmax v) (mult v)).
  Definition fq_max (v : quad (fcar F) (fcar F)) (x : fcar F) : outcome (quad (fcar F) (fcar F)) :=
    Done (Quad (addend v) (vmin v) (f_min F (vmax v) x) (mult v)).
  Definition fq_add (v : quad (fcar F) (fcar F)) (x : fcar F) : outcome (quad (fcar F) (fcar F)) :=
    let! a := f_add F (addend v) x in Done (Quad a (vmin v) (vmax v) (mult v)).
  Definition f_bound (lo hi x : fcar F) : fcar F := f_max F (f_min F x hi) lo.

  (** [StatFloat<T>] (src/types/float.rs:6-72). *)
  Definition statFloat : StatValue := {|
    val := quad (fcar F) (fcar F); outT := fcar F;
    addT := fcar F; mulT := fcar F; bitT := Empty_set; boundsT := fcar F; baseT := fcar F;
    sv_default := Quad (f_zero F) (f_minv F) (f_maxv F) (f_one F);
    (* 31-36 *)
    sv_join := fun self other =>
      let! a := f_add F (addend self) (addend other) in
      let! m := f_mul F (mult self) (mult other) in
      Done (Quad a (f_max F (vmin self) (vmin other)) (f_min F (vmax self) (vmax other)) m);
    (* 38-40 *)
    sv_eval := fun self =>
      let! p := f_mul F (addend self) (mult self) in Done (f_bound (vmin self) (vmax self) p);
    (* 48-62 *)
    sv_add := fq_add;
    sv_mul := fun self other =>
      let! m := f_mul F (mult self) other in Done (Quad (addend self) (vmin self) (vmax self) m);
    sv_not := noop; sv_or := noop;
    sv_min := fq_min; sv_max := fq_max;
    (* 64-71 *)
    sv_from_base := fun base => Quad base (f_minv F) (f_maxv F) (f_one F)
  |}.

  (** [StatFloatAdditive<T>] (src/types/float.rs:74-142). *)
  Definition statFloatAdditive : StatValue := {|
    val := quad (fcar F) (fcar F); outT := fcar F;
    addT := fcar F; mulT := fcar F; bitT := Empty_set; boundsT := fcar F; baseT := fcar F;
    sv_default := Quad (f_zero F) (f_minv F) (f_maxv F) (f_zero F);
    (* 99-104 *)
    sv_join := fun self other =>
      let! a := f_add F (addend self) (addend other) in
      let! m := f_add F (mult self) (mult other) in
      Done (Quad a (f_max F (vmin self) (vmin other)) (f_min F (vmax self) (vmax other)) m);
    (* 106-110 *)
    sv_eval := fun self =>
      let! m := f_add F (mult self) (f_one F) in
      let! p := f_mul F (addend self) m in
      Done (f_bound (vmin self) (vmax self) p);
    (* 118-132 *)
    sv_add := fq_add;
    sv_mul := fun self other =>
      let! m := f_add F (mult self) other in Done (Quad (addend self) (vmin self) (vmax self) m);
    sv_not := noop; sv_or := noop;
    sv_min := fq_min; sv_max := fq_max;
    (* 134-141 *)
    sv_from_base := fun base => Quad base (f_minv F) (f_maxv F) (f_zero F)
  |}.

  (** [StatMult<T>] (src/types/float.rs:144-204). *)
  Record tri : Type := Tri { t_min : fcar F; t_max : fcar F; t_mult : fcar F }.
  Definition statMult : StatValue := {|
    val := tri; outT := fcar F;
    addT := Empty_set; mulT := fcar F; bitT := Empty_set; boundsT := fcar F; baseT := fcar F;
    sv_default := Tri (f_minv F) (f_maxv F) (f_one F);
    (* 167-171 *)
    sv_join := fun self other =>
      let! m := f_mul F (t_mult self) (t_mult other) in
      Done (Tri (f_max F (t_min self) (t_min other)) (f_min F (t_max self) (t_max other)) m);
    (* 173-175 *)
    sv_eval := fun self => Done (f_bound (t_min self) (t_max self) (t_mult self));
    (* 185-195 *)
    sv_add := noop;
    sv_mul := fun self other =>
      let! m := f_mul F (t_mult self) other in Done (Tri (t_min self) (t_max self) m);
    sv_not := noop; sv_or := noop;
    sv_min := fun self other => Done (Tri (f_max F (t_min self) other) (t_max self) (t_mult self));
    sv_max := fun self other => Done (Tri (t_min self) (f_min F (t_max self) other) (t_mult self));
    (* 197-203 *)
    sv_from_base := fun base => Tri (f_minv F) (f_maxv F) base
  |}.
End FloatTypes.
Arguments Tri {F}.
Arguments t_min {F}.
Arguments t_max {F}.
Arguments t_mult {F}.

(** [trait Flags] (src/num_traits.rs:59-64). *)
Record FlagsT : Type := {
  gcar : Type;
  g_default : gcar;
  g_or : gcar -> gcar -> gcar;
  g_exclude : gcar -> gcar -> gcar
}.

(** The blanket impl on types with the three bitwise operations (src/num_traits.rs:66-73),
    on the integer types: [exclude] is [a ^ (a & b)]. *)
Definition zflags : FlagsT := {|
  gcar := Z; g_default := 0; g_or := Z.lor;
  g_exclude := fun a b => Z.lxor a (Z.land a b)
|}.

(** The same blanket impl on [bool]. *)
Definition boolflags : FlagsT := {|
  gcar := bool; g_default := false; g_or := orb;
  g_exclude := fun a b => xorb a (andb a b)
|}.

(** [StatFlags<T>] (src/types/flags.rs:8-50). *)
Record flagsV (G : FlagsT) : Type := FlagsV { f_not : gcar G; f_or : gcar G }.
Arguments FlagsV {G}.
Arguments f_not {G}.
Arguments f_or {G}.
Definition statFlags (G : FlagsT) : StatValue := {|
  val := flagsV G; outT := gcar G;
  addT := Empty_set; mulT := Empty_set; bitT := gcar G; boundsT := Empty_set; baseT := gcar G;
  sv_default := FlagsV (g_default G) (g_default G);
  (* 21-24 *)
  sv_join := fun self other =>
    Done (FlagsV (g_or G (f_not self) (f_not other)) (g_or G (f_or self) (f_or other)));
  (* 26-28 *)
  sv_eval := fun self => Done (g_exclude G (f_or self) (f_not self));
  sv_add := noop; sv_mul := noop;
  (* 36-42 *)
  sv_not := fun self other => Done (FlagsV (g_or G (f_not self) other) (f_or self));
  sv_or := fun self other => Done (FlagsV (f_not self) (g_or G (f_or self) other));
  sv_min := noop; sv_max := noop;
  (* 44-49 *)
  sv_from_base := fun base => FlagsV (g_default G) base
|}.

(** [StatExists] (src/types/singleton.rs:8-38). *)
Definition statExists : StatValue := {|
  val := bool; outT := bool;
  addT := Empty_set; mulT := Empty_set; bitT := bool; boundsT := Empty_set; baseT := bool;
  sv_default := false;
  sv_join := fun self other => Done (orb self other);
  sv_eval := fun self => Done self;
  sv_add := noop; sv_mul := noop; sv_not := noop;
  sv_or := fun self other => Done (orb self other);
  sv_min := noop; sv_max := noop;
  sv_from_base := fun base => base
|}.

(** [StatOnce<T>] (src/types/singleton.rs:40-144). *)
Inductive once (A : Type) : Type := NotFound | Found (a : A) | FoundMultiple.
Arguments NotFound {A}.
Arguments Found {A} a.
Arguments FoundMultiple {A}.

(** 110-119 *)
Definition once_join {A} (self other : once A) : once A :=
  match self, other with
  | _, NotFound => self
  | NotFound, other => other
  | FoundMultiple, _ => self
  | Found _, _ => FoundMultiple
  end.
(** 131-139; [set] (90-92) is an alias. *)
Definition once_or {A} (self : once A) (x : A) : once A :=
  match self with
  | NotFound => Found x
  | Found _ => FoundMultiple
  | FoundMultiple => FoundMultiple
  end.
(** 95-103 *)
Definition once_try_set {A} (self : once A) (x : A) : once A * bool :=
  match self with
  | NotFound => (Found x, true)
  | _ => (self, false)
  end.
(** 67-87; [into_option] and [as_ref]. *)
Definition once_into_option {A} (self : once A) : option A :=
  match self with Found r => Some r | _ => None end.
Definition once_is_some {A} (self : once A) : bool :=
  match self with Found _ => true | _ => false end.
Definition once_is_none {A} (self : once A) : bool := negb (once_is_some self).
(** 51-57, 59-65; [expect] is [unwrap] with a message. *)
Definition once_unwrap {A} (self : once A) : outcome A :=
  match once_into_option self with Some r => Done r | None => Panics PUnwrap end.
Definition once_unwrap_or {A} (self : once A) (or : A) : A :=
  match once_into_option self with Some r => r | None => or end.

Definition statOnce (A : Type) : StatValue := {|
  val := once A; outT := once A;
  addT := Empty_set; mulT := Empty_set; bitT := A; boundsT := Empty_set; baseT := A;
  sv_default := NotFound;
  sv_join := fun self other => Done (once_join self other);
  sv_eval := fun self => Done self;
  sv_add := noop; sv_mul := noop; sv_not := noop;
  sv_or := fun self other => Done (once_or self other);
  sv_min := noop; sv_max := noop;
  sv_from_base := fun base => Found base
|}.

(** [Prioritized<T, LAST>] (src/types/prioritized.rs:8-50). *)
Record prio (A : Type) : Type := Prio { p_value : A; p_priority : Z }.
Arguments Prio {A}.
Arguments p_value {A}.
Arguments p_priority {A}.
Definition prioritized (A : Type) (dflt : A) (last : bool) : StatValue := {|
  val := prio A; outT := A;
  addT := Empty_set; mulT := Empty_set; bitT := prio A; boundsT := Empty_set; baseT := prio A;
  sv_default := Prio dflt 0;
  (* 21-31: only the value is replaced *)
  sv_join := fun self other =>
    Done (if last
          then if p_priority self <=? p_priority other
               then Prio (p_value other) (p_priority self) else self
          else if p_priority self <? p_priority other
               then Prio (p_value other) (p_priority self) else self);
  (* 33-35 *)
  sv_eval := fun self => Done (p_value self);
  sv_add := noop; sv_mul := noop; sv_not := noop; sv_or := noop; sv_min := noop; sv_max := noop;
  (* 47-49 *)
  sv_from_base := fun base => base
|}.
