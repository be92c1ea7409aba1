(** [StatValuePair] casts and [match_stat!] (src/stat.rs:202-243, 281-356, src/lib.rs:220-245). *)
From Coq Require Import ZArith List Bool.
From Verif Require Import M_Outcome M_Value M_Stat.
Import ListNotations.
Local Open Scope Z_scope.

(** What else a program says about a [Stat] implementor [T]: the size and alignment of [T]
    itself, and [T::from_index], where the resulting stat is represented by its own index. *)
Record StatTypes (P : Prog) : Type := {
  s_size : sty P -> Z;
  s_align : sty P -> Z;
  s_from_index : sty P -> Z -> outcome Z
}.
Arguments s_size {P}.
Arguments s_align {P}.
Arguments s_from_index {P}.

Section Pair.
  Variable P : Prog.
  Variable D : StatTypes P.
  Notation T s := (val (VT P (vt_value P s))).

  (** [validate::<T>()] on the stat type, not on its value type (319, 333, 344). *)
  Definition validate_stat (s : sty P) : outcome unit := validate (s_size D s) (s_align D s).

  (** [StatValuePair::cast] (318-329): the stat, and the current value behind the returned
      reference. [ptr::eq] compares vtable addresses. *)
  Definition pair_cast (p : pair P) (s : sty P) : outcome (option (Z * T s)) :=
    let! _ := validate_stat s in
    if vt_addr P (si_ty (p_stat p)) =? vt_addr P s then
      let! i := s_from_index D s (si_index (p_stat p)) in
      let! v := cast_val P (vt_value P s) (p_buf p) in
      Done (Some (i, v))
    else Done None.
  (** [is_then_cast] (332-340) *)
  Definition pair_is_then_cast (p : pair P) (o : inst P) : outcome (option (T (si_ty o))) :=
    let! _ := validate_stat (si_ty o) in
    if inst_eqb (p_stat p) o then
      let! v := cast_val P (vt_value P (si_ty o)) (p_buf p) in Done (Some v)
    else Done None.
  (** [into_result] (343-350). When [None] is returned the buffer is forgotten without being
      dropped; see [pair_into_leaks]. *)
  Definition pair_into_result (p : pair P) (s : sty P) : outcome (option (T s)) :=
    let! _ := validate_stat s in
    if vt_addr P (si_ty (p_stat p)) =? vt_addr P s then
      let! v := buf_into P (vt_value P s) (p_buf p) in Done (Some v)
    else Done None.
  (** What happens to the pair's value: handed to the caller, or lost. *)
  Definition pair_into_leaks (p : pair P) (s : sty P) : bool :=
    negb (vt_addr P (si_ty (p_stat p)) =? vt_addr P s).
  (** [clone_buffer] (352-355) *)
  Definition pair_clone_buffer (p : pair P) : outcome (buffer P) := vt_clone P (si_ty (p_stat p)) (p_buf p).

  (** [StatValuePair::is] is [pair_is] (M_Stat); [Stat::is] (203-205). *)
  Definition stat_is (a b : inst P) : bool := inst_eqb a b.
  (** [Any::downcast_mut] (std): by [TypeId]. *)
  Definition downcast (t u : vty P) (v : val (VT P t)) : option (val (VT P u)) :=
    match vty_dec P t u with
    | left e => Some (eq_rect _ (fun t => val (VT P t)) v _ e)
    | right _ => None
    end.
  (** [StatExt::cast] (222-231) on a stat and a value of its type. The stat itself is downcast
      like its value; it is represented by its index. *)
  Definition ext_cast (a : inst P) (v : T (si_ty a)) (s : sty P) : option (Z * T s) :=
    match sty_dec P (si_ty a) s with
    | left _ => match downcast _ (vt_value P s) v with Some w => Some (si_index a, w) | None => None end
    | right _ => None
    end.
  (** [StatExt::is_then_cast] (234-243) *)
  Definition ext_is_then_cast (a : inst P) (v : T (si_ty a)) (o : inst P) : option (T (si_ty o)) :=
    if stat_is a o then downcast _ (vt_value P (si_ty o)) v else None.

  (** Writing through a reference obtained by a cast. *)
  Definition pair_write (p : pair P) (s : sty P) (v : T s) : pair P := Pair (p_stat p) (Buf (vt_value P s) v).

  Section Match.
    Variable R : Type.
    (** An arm of [match_stat!] whose body updates the value and yields an [R]. *)
    Inductive arm : Type :=
    | ABind (s : sty P) (body : Z -> T s -> outcome (T s * R))       (** [(ident @ ty, value) => expr] *)
    | AIs (o : inst P) (body : T (si_ty o) -> outcome (T (si_ty o) * R)) (** [(expr, value) => expr] *)
    | AWild (body : pair P -> outcome (pair P * R)).                 (** [_ => expr]; [expr] may use the pair *)

    (** The macro expansion (src/lib.rs:222-244). [miss] is the [()] of an exhausted list. *)
    Fixpoint match_stat (p : pair P) (l : list arm) (miss : R) : outcome (pair P * R) :=
      match l with
      | [] => Done (p, miss)
      | ABind s body :: l' =>
          let! o := pair_cast p s in
          match o with
          | Some (i, v) => let! r := body i v in Done (pair_write p s (fst r), snd r)
          | None => match_stat p l' miss
          end
      | AIs o body :: l' =>
          let! c := pair_is_then_cast p o in
          match c with
          | Some v => let! r := body v in Done (pair_write p (si_ty o) (fst r), snd r)
          | None => match_stat p l' miss
          end
      | AWild body :: _ => body p
      end.
  End Match.
  Arguments ABind {R}.
  Arguments AIs {R}.
  Arguments AWild {R}.
  Arguments match_stat {R}.

  (** One action of safe code holding a [&mut StatValuePair]. *)
  Inductive pair_op : Type :=
  | OMatch (l : list (arm unit))                  (** [match_stat!] *)
  | OCast (s : sty P) (f : T s -> outcome (T s))  (** [cast], then write if [Some] *)
  | OIs (o : inst P) (f : T (si_ty o) -> outcome (T (si_ty o)))
  | OReplace (s : inst P) (v : T (si_ty s))       (** [*pair = StatValuePair::new(&s, v)] *)
  | OSwapDefault (s : inst P).                    (** [*pair = StatValuePair::new_default(&s)] *)
  Definition pair_step (p : pair P) (o : pair_op) : outcome (pair P) :=
    match o with
    | OMatch l => let! r := match_stat p l tt in Done (fst r)
    | OCast s f =>
        let! c := pair_cast p s in
        match c with Some (_, v) => let! v' := f v in Done (pair_write p s v') | None => Done p end
    | OIs o f =>
        let! c := pair_is_then_cast p o in
        match c with Some v => let! v' := f v in Done (pair_write p (si_ty o) v') | None => Done p end
    | OReplace s v => pair_new P s v
    | OSwapDefault s => pair_new_default P s
    end.
  Definition pair_steps (p : pair P) (l : list pair_op) : outcome (pair P) := ofold pair_step p l.
End Pair.
Arguments validate_stat {P}.
Arguments pair_cast {P}.
Arguments pair_is_then_cast {P}.
Arguments pair_into_result {P}.
Arguments pair_into_leaks {P}.
Arguments pair_clone_buffer {P}.
Arguments pair_write {P}.
Arguments stat_is {P}.
Arguments downcast {P}.
Arguments ext_cast {P}.
Arguments ext_is_then_cast {P}.
Arguments ABind {P R}.
Arguments AIs {P R}.
Arguments AWild {P R}.
Arguments match_stat {P} D {R}.
Arguments OMatch {P}.
Arguments OCast {P}.
Arguments OIs {P}.
Arguments OReplace {P}.
Arguments OSwapDefault {P}.
Arguments pair_step {P}.
Arguments pair_steps {P}.
