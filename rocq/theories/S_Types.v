(** What the value types are meant to satisfy, stated for an arbitrary [StatValue]. *)
From Coq Require Import ZArith List Permutation.
From Verif Require Import M_Outcome M_Ints M_Ratio M_Float M_Value M_Types S_Ratio.
Import ListNotations.
Local Open Scope Z_scope.

(** A contribution to a stat: an operation applied in place, or a value joined in. *)
Inductive step (S : StatValue) : Type :=
| SOp (o : stat_op S)
| SJoin (v : val S).
Arguments SOp {S} o.
Arguments SJoin {S} v.

(** The same contributions with the type given explicitly. *)
Definition sAdd (S : StatValue) (x : addT S) : step S := SOp (OAdd x).
Definition sMul (S : StatValue) (x : mulT S) : step S := SOp (OMul x).
Definition sMin (S : StatValue) (x : boundsT S) : step S := SOp (OMin x).
Definition sMax (S : StatValue) (x : boundsT S) : step S := SOp (OMax x).
Definition sJoin (S : StatValue) (v : val S) : step S := SJoin v.

Definition run_step {S} (v : val S) (s : step S) : outcome (val S) :=
  match s with SOp o => write_to o v | SJoin w => sv_join S v w end.
Definition run {S} (v : val S) (l : list (step S)) : outcome (val S) := ofold run_step v l.

(** Everything but [Base], which overwrites. *)
Definition unordered {S} (s : step S) : Prop :=
  match s with SOp (OBase _) => False | _ => True end.

(** No order is needed: every permutation gives the same value (or the same failure).
    [P] and [E] delimit the representable values and contributions. *)
Definition order_free (S : StatValue) (P : val S -> Prop) (E : step S -> Prop) : Prop :=
  forall l l', Permutation l l' -> Forall unordered l -> Forall E l ->
  forall v, P v -> run v l = run v l'.

(** The weaker form for arithmetic that may panic: orders that succeed agree. *)
Definition order_free_if_done (S : StatValue) (P : val S -> Prop) (E : step S -> Prop) : Prop :=
  forall l l', Permutation l l' -> Forall unordered l -> Forall E l ->
  forall v r r', P v -> run v l = Done r -> run v l' = Done r' -> r = r'.

(** [default] may be joined on either side without effect. *)
Definition default_neutral (S : StatValue) (P : val S -> Prop) : Prop :=
  forall v, P v -> sv_join S v (sv_default S) = Done v /\ sv_join S (sv_default S) v = Done v.

(** One modifier in its own entry is the same as the modifier applied in place. *)
Definition splittable (S : StatValue) (P : val S -> Prop) (E : stat_op S -> Prop) : Prop :=
  forall v o, P v -> E o -> (match o with OBase _ => False | _ => True end) ->
  (let! w := into_stat o in sv_join S v w) = write_to o v.

(** Evaluated form in, evaluated form out. *)
Definition base_returns (S : StatValue) (f : baseT S -> outT S) (E : baseT S -> Prop) : Prop :=
  forall b, E b -> sv_eval S (sv_from_base S b) = Done (f b).

(** ** Bounds of the integer types *)
Section Bounds.
  Variable S : StatValue.
  Variables lo hi : val S -> Z.
  Variable out : outT S -> Z.
  Variable bnd : boundsT S -> Z.

  Definition lower (s : step S) : list Z :=
    match s with SOp (OMin x) => [bnd x] | SJoin w => [lo w] | _ => [] end.
  Definition upper (s : step S) : list Z :=
    match s with SOp (OMax x) => [bnd x] | SJoin w => [hi w] | _ => [] end.

  (** The largest lower and the smallest upper bound contributed. *)
  Definition largest (a : Z) (l : list Z) : Z := fold_left Z.max l a.
  Definition smallest (a : Z) (l : list Z) : Z := fold_left Z.min l a.

  Definition eval_bounded : Prop :=
    forall v r, sv_eval S v = Done r ->
      lo v <= out r /\ (lo v <= hi v -> out r <= hi v) /\ (hi v < lo v -> out r = lo v).

  Definition bounds_accumulate : Prop :=
    forall l v v', Forall unordered l -> run v l = Done v' ->
      lo v' = largest (lo v) (flat_map lower l) /\ hi v' = smallest (hi v) (flat_map upper l).
End Bounds.

(** ** Representable values and contributions *)
Definition z_ok (T : intp) (z : Z) : Prop := imin (i_ty T) <= z <= imax (i_ty T).

(** An integer stat value all of whose fields are representable; [Q] for the multiplier. *)
Definition quad_ok {M} (T : intp) (Q : M -> Prop) (v : quad Z M) : Prop :=
  z_ok T (addend v) /\ z_ok T (vmin v) /\ z_ok T (vmax v) /\ Q (mult v).

(** A representable operation: each operand satisfies the predicate of its kind. *)
Definition op_ok {S} (A : addT S -> Prop) (M : mulT S -> Prop) (B : boundsT S -> Prop) (o : stat_op S) : Prop :=
  match o with
  | OAdd x => A x | OMul x => M x | OMin x => B x | OMax x => B x | _ => True
  end.
Definition step_ok {S} (P : val S -> Prop) (E : stat_op S -> Prop) (s : step S) : Prop :=
  match s with SOp o => E o | SJoin v => P v end.

(** ** Trees of contributions, for the types that count or collect *)
Inductive tree (B : Type) : Type :=
| TDefault                    (** [default()] *)
| TBase (b : B)               (** [from_base(b)] *)
| TOr (t : tree B) (b : B)    (** [t.or(b)] *)
| TNot (t : tree B) (b : B)   (** [t.not(b)] *)
| TJoin (t u : tree B).       (** [t.join(u)] *)
Arguments TDefault {B}.
Arguments TBase {B}.
Arguments TOr {B}.
Arguments TNot {B}.
Arguments TJoin {B}.

(** What a tree evaluates to, given how to read [B] as base and bit operand; operands are applied
    as [StatOperation]s. *)
Fixpoint tree_run (S : StatValue) (B : Type) (base : B -> baseT S) (bit : B -> bitT S) (t : tree B)
    : outcome (val S) :=
  match t with
  | TDefault => Done (sv_default S)
  | TBase b => into_stat (OBase (base b))
  | TOr t b => let! v := tree_run S B base bit t in write_to (OOr (bit b)) v
  | TNot t b => let! v := tree_run S B base bit t in write_to (ONot (bit b)) v
  | TJoin t u =>
      let! v := tree_run S B base bit t in
      let! w := tree_run S B base bit u in sv_join S v w
  end.

(** Everything contributed positively / by exclusion. *)
Fixpoint included {B} (t : tree B) : list B :=
  match t with
  | TDefault => []
  | TBase b => [b]
  | TOr t b => included t ++ [b]
  | TNot t _ => included t
  | TJoin t u => included t ++ included u
  end.
Fixpoint excluded {B} (t : tree B) : list B :=
  match t with
  | TDefault | TBase _ => []
  | TOr t _ => excluded t
  | TNot t b => excluded t ++ [b]
  | TJoin t u => excluded t ++ excluded u
  end.

Definition once_spec {A} (l : list A) : once A :=
  match l with [] => NotFound | [x] => Found x | _ => FoundMultiple end.

(** ** Prioritized: the documented result *)
(** [x] is the first (or last) entry of highest priority in [l]. *)
Definition is_best {A} (last : bool) (l : list (prio A)) (x : prio A) : Prop :=
  exists l1 l2, l = l1 ++ x :: l2 /\
    (forall y, In y l1 -> if last then p_priority y <= p_priority x else p_priority y < p_priority x) /\
    (forall y, In y l2 -> if last then p_priority y < p_priority x else p_priority y <= p_priority x).

(** Flag sets: what [or] and [exclude] must mean. *)
Record lawful_flags (G : FlagsT) (F : Type) (mem : gcar G -> F -> Prop) : Prop := {
  lf_default : forall f, ~ mem (g_default G) f;
  lf_or : forall a b f, mem (g_or G a b) f <-> mem a f \/ mem b f;
  lf_exclude : forall a b f, mem (g_exclude G a b) f <-> mem a f /\ ~ mem b f
}.

(** ** The percentage formula *)
(** [r] is [addend * (scale + mult) / scale] rounded and then bounded. *)
Definition pct_result (R : rounding) (scale : Z) (v : quad Z Z) (r : Z) : Prop :=
  exists y, rounds_to R (addend v * (scale + mult v)) scale y /\
    r = Z.max (Z.min y (vmax v)) (vmin v).

(** [r] is [addend * n / d] rounded and then bounded. *)
Definition frac_result (R : rounding) (v : quad Z ratio) (r : Z) : Prop :=
  exists y, rounds_to R (addend v * numer (mult v)) (denom (mult v)) y /\
    r = Z.max (Z.min y (vmax v)) (vmin v).
