(** Erased values and stat instances (src/buffer.rs, src/stat.rs). *)
From Coq Require Import ZArith List Bool.
From Verif Require Import M_Outcome M_Value.
Local Open Scope Z_scope.

(** The Rust types a program uses with this library. [vty] are the value types ([StatValue]
    implementors) and [sty] the [Stat] implementors; both are identified as by [TypeId].
    [vt_addr] is the address of the static returned by [Stat::vtable]. The lemmas assume it
    injective: distinct statics have distinct addresses, and [StatVTable<Self>] ties a table to
    one implementor (src/stat.rs:109-116, 184-189). *)
Record Prog : Type := {
  vty : Type;
  vty_dec : forall a b : vty, {a = b} + {a <> b};
  VT : vty -> StatValue;
  v_size : vty -> Z;
  v_align : vty -> Z;
  sty : Type;
  sty_dec : forall a b : sty, {a = b} + {a <> b};
  vt_value : sty -> vty;
  vt_addr : sty -> Z
}.

(** [validate] (src/buffer.rs:8-23) on a type of the given size and alignment. *)
Definition validate (size align : Z) : outcome unit :=
  if (align =? 1) || (align =? 2) || (align =? 4) || (align =? 8)
  then if 24 <? size then Panics PSize else Done tt
  else Panics PAlign.

Section Buffer.
  Variable P : Prog.
  Notation T t := (val (VT P t)).

  Definition validate_ty (t : vty P) : outcome unit := validate (v_size P t) (v_align P t).

  (** [Buffer] (src/buffer.rs:32-33): the value and the type it was written with. Uninitialised
      bytes and copies of the bytes after a move are not represented; see the ownership
      outputs of the functions that move buffers. *)
  Record buffer : Type := Buf { b_ty : vty P; b_val : T b_ty }.

  (** Reading the bytes at type [t] is defined only for the type they were written with.
      (Rust also allows types of compatible layout; the library never relies on it.) *)
  Definition cast_val (t : vty P) (b : buffer) : outcome (T t) :=
    match vty_dec P (b_ty b) t with
    | left e => Done (eq_rect _ (fun t => T t) (b_val b) _ e)
    | right _ => UB
    end.

  (** [Buffer::from] (src/buffer.rs:58-63). *)
  Definition buf_from (t : vty P) (v : T t) : outcome buffer :=
    let! _ := validate_ty t in Done (Buf t v).
  (** [Buffer::as_ref] (40-43); also [into] (52-55) and [read_move] (70-73), which copy out. *)
  Definition buf_ref (t : vty P) (b : buffer) : outcome (T t) :=
    let! _ := validate_ty t in cast_val t b.
  Definition buf_into := buf_ref.
  Definition buf_read_move := buf_ref.
  (** [Buffer::as_mut] (46-49), together with what the holder of the reference writes. *)
  Definition buf_mut (t : vty P) (b : buffer) (f : T t -> outcome (T t)) : outcome buffer :=
    let! v := buf_ref t b in let! v' := f v in Done (Buf t v').

  (** The functions of [StatVTable::of::<T>] (src/stat.rs:39-62), the same in
      [no_serialize] (70-93). [join_by_ref] joins a clone. *)
  Definition vt_join (s : sty P) (to from : buffer) : outcome buffer :=
    let t := vt_value P s in
    let! _ := validate_ty t in
    let! a := cast_val t to in
    let! b := cast_val t from in
    let! r := sv_join (VT P t) a b in
    Done (Buf t r).
  Definition vt_default (s : sty P) : outcome buffer :=
    buf_from (vt_value P s) (sv_default (VT P (vt_value P s))).
  Definition vt_clone (s : sty P) (b : buffer) : outcome buffer :=
    let! v := buf_ref (vt_value P s) b in buf_from (vt_value P s) v.
  Definition vt_drop (s : sty P) (b : buffer) : outcome unit :=
    let! _ := buf_read_move (vt_value P s) b in Done tt.

  (** [StatInst] (src/stat.rs:117-121). The vtable reference is represented by the [Stat]
      implementor it belongs to; comparisons go through its address. *)
  Record inst : Type := Inst { si_ty : sty P; si_index : Z }.
  (** 137-141 *)
  Definition inst_eqb (a b : inst) : bool :=
    (si_index a =? si_index b) && (vt_addr P (si_ty a) =? vt_addr P (si_ty b)).
  (** 151-155, 105-107 *)
  Definition inst_cmp (a b : inst) : comparison :=
    match vt_addr P (si_ty a) ?= vt_addr P (si_ty b) with
    | Eq => si_index a ?= si_index b
    | c => c
    end.
  (** [<] and [<=] through [partial_cmp] (145-149). *)
  Definition inst_ltb (a b : inst) : bool := match inst_cmp a b with Lt => true | _ => false end.
  Definition inst_leb (a b : inst) : bool := match inst_cmp a b with Gt => false | _ => true end.
  (** 157-162: the data fed to the hasher. *)
  Definition inst_hash (a : inst) : list Z := (si_index a :: vt_addr P (si_ty a) :: nil)%list.

  (** [StatValuePair] (src/stat.rs:281-284). *)
  Record pair : Type := Pair { p_stat : inst; p_buf : buffer }.
  (** 298-310 *)
  Definition pair_new (s : inst) (v : T (vt_value P (si_ty s))) : outcome pair :=
    let! b := buf_from _ v in Done (Pair s b).
  Definition pair_new_default (s : inst) : outcome pair :=
    pair_new s (sv_default (VT P (vt_value P (si_ty s)))).
  (** 313-315 *)
  Definition pair_is (p : pair) (s : inst) : bool := inst_eqb (p_stat p) s.
End Buffer.
Arguments Buf {P}.
Arguments b_ty {P}.
Arguments b_val {P}.
Arguments Inst {P}.
Arguments si_ty {P}.
Arguments si_index {P}.
Arguments inst_eqb {P}.
Arguments inst_cmp {P}.
Arguments inst_ltb {P}.
Arguments inst_leb {P}.
Arguments inst_hash {P}.
Arguments Pair {P}.
Arguments p_stat {P}.
Arguments p_buf {P}.
Arguments pair_is {P}.
