(** What documents of the derived implementations say. *)
From Coq Require Import String ZArith List Bool.
From Verif Require Import M_Outcome M_Ints M_Ratio M_Float M_Value M_Types M_Qualifier M_Search M_Stat M_StatMap M_HashMap M_Registry M_Serde M_ValueSerde S_Demo S_Totals S_Serde.
Import ListNotations.
Local Open Scope Z_scope.

(** What is written is read as what was written. *)
Definition back {A} (L : leaf A) (v : A) : Prop := rd L (wr L v) = Some v.

(** [d] is a struct with the fields [names], whose contents are [ds]: a map in which each name
    occurs exactly once, or a sequence in the order of the names. *)
Definition fields_are (strict : bool) (names : list string) (d : doc) (ds : list doc) : Prop :=
  List.length ds = List.length names /\
  ((exists l, d = DMap l /\
      forall i n x, nth_error names i = Some n -> nth_error ds i = Some x ->
      filter (fun p => String.eqb (fst p) n) l = [(n, x)]) \/
   (exists rest, d = DSeq (ds ++ rest) /\ (strict = true -> rest = []))).

(** [d] is the variant with number [i] of an enum, with the content [c]. *)
Definition variant_is (named : bool) (names : list string) (d : doc) (i : nat) (c : option doc) : Prop :=
  exists n, nth_error names i = Some n /\
  if named then match c with None => d = DStr n | Some x => d = DMap [(n, x)] end
  else d = DSeq (DInt (Z.of_nat i) :: match c with None => [] | Some x => [x] end).
(** A unit variant may also be spelled with the content null where names are written. *)
Definition unit_is (named : bool) (names : list string) (d : doc) (i : nat) : Prop :=
  variant_is named names d i None \/ named = true /\ variant_is named names d i (Some DNull).
(** [d] is a pair. *)
Definition pair_is (strict : bool) (d a b : doc) : Prop :=
  exists rest, d = DSeq (a :: b :: rest) /\ (strict = true -> rest = []).

(** Numbers of the type. *)
Definition small (t : ity) (z : Z) : Prop := in_range t z = true.
Definition small_ratio (t : ity) (r : ratio) : Prop := small t (numer r) /\ small t (denom r) /\ denom r <> 0.
Definition small_quad {M} (t : ity) (ok : M -> Prop) (v : quad Z M) : Prop :=
  small t (addend v) /\ small t (vmin v) /\ small t (vmax v) /\ ok (mult v).

(** Every operand of a history satisfies [ok]. *)
Fixpoint operands {S : StatValue} (ok : stat_op S -> Prop) (h : history S) : Prop :=
  match h with
  | FromDefault => True
  | FromBase b => ok (OBase b)
  | Applied h o => operands ok h /\ ok o
  | Joined h k => operands ok h /\ operands ok k
  end.
(** Operands of a number type that are numbers of the type. *)
Definition op_of {S : StatValue} (a : addT S -> Prop) (m : mulT S -> Prop) (r : boundsT S -> Prop) (b : baseT S -> Prop) (o : stat_op S) : Prop :=
  match o with
  | OAdd x => a x | OMul x => m x | OMin x => r x | OMax x => r x | OBase x => b x
  | OOr _ | ONot _ => True
  end.

(** Every operand of an operation is read as what was written. *)
Definition op_back {S : StatValue} (La : leaf (addT S)) (Lm : leaf (mulT S)) (Lb : leaf (bitT S)) (Lr : leaf (boundsT S)) (Lz : leaf (baseT S)) (o : stat_op S) : Prop :=
  match o with
  | OAdd x => back La x | OMul x => back Lm x | OOr x => back Lb x | ONot x => back Lb x
  | OMin x => back Lr x | OMax x => back Lr x | OBase x => back Lz x
  end.
(** Operands of flags, of [StatOnce] and of [Prioritized]. *)
Definition flag_op (t : ity) (o : stat_op (statFlags zflags)) : Prop :=
  match o with OOr x | ONot x | OBase x => small t x | _ => True end.
Definition once_op {A} (LA : leaf A) (o : stat_op (statOnce A)) : Prop :=
  match o with OOr x | OBase x => back LA x | _ => True end.
Definition prio_op {A} (LA : leaf A) (d : A) (last : bool) (o : stat_op (prioritized A d last)) : Prop :=
  match o with OBase x => back LA (p_value x) /\ small I32 (p_priority x) | _ => True end.

(** A call of a map method that puts in, or turns values satisfying [K] into, values satisfying [K]. *)
Definition retains {P : Prog} {Q : QFlag} (K : forall t, val (VT P t) -> Prop) (o : mop P Q) : Prop :=
  match o with
  | MInsert _ s v => K _ v
  | MInsertBase _ s b => K _ (sv_from_base (VT P (vt_value P (si_ty s))) b)
  | MGetMut _ s f => forall v w, K _ v -> f v = Done w -> K _ w
  | MModify _ s op => (forall v w, K _ v -> write_to op v = Done w -> K _ w) /\ (forall w, into_stat op = Done w -> K _ w)
  | MModifyWith _ s f => (forall v w, K _ v -> f v = Done w -> K _ w) /\ (forall w, f (sv_default _) = Done w -> K _ w)
  | MIterMut s f => forall q v w, K _ v -> f q v = Done w -> K _ w
  | MExtend U l => forall q i v, In (q, i, v) l -> K _ v
  | MRemove _ _ | MRemoveAll _ | MClear => True
  end.

(** Loading fractions. *)
Definition i8 : ity := I8.
Definition frac_stat : Type := quad Z ratio.
Definition frac_codec : leaf frac_stat := leaf_rounded true true (leaf_int I8) (leaf_ratio true (leaf_int I8)).
Definition frac_doc (a n d : Z) : doc :=
  DMap [("addend", DInt a); ("min", DInt (-128)); ("max", DInt 127); ("mult", DSeq [DInt n; DInt d]); ("rounding", DNull)]%string.
Definition frac_eval (oc : bool) (v : frac_stat) : outcome Z := sv_eval (statIntFraction oc (prim I8) Truncate) v.

(** The demo program with derived implementations. *)
Definition demo_leaf (t : demo_v) : leaf (val (VT demo t)) :=
  match t return leaf (val (VT demo t)) with VNum => leaf_quad true true (leaf_int I32) (leaf_int I32) | VBool => leaf_bool end.
Definition derivedC : Codec demo intQ := leaf_codec demo intQ true true (fun _ => true) demo_leaf (leaf_int I32).
Definition derived_saved (l : list dop) : option doc := match ser_map saveN derivedC (demo_run l) with Done o => o | _ => None end.
Definition derived_load (d : doc) : map_t demo intQ := match de_map derivedC (WReg demo_reg) d with Done (Some m) => m | _ => [] end.
Definition derived_how (d : doc) : ended := how (de_map derivedC (WReg demo_reg) d).
