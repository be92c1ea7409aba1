(** What [derive(Serialize, Deserialize)] of serde makes of the types of this crate: the value
    types (src/types), [Fraction] (src/num_traits.rs:283-291), [StatOperation] and [Unsupported]
    (src/operations.rs:5-14, 41-42), [StatCache] (src/cache.rs:22-27) and [StatEntity]
    (src/querier.rs:23-25). A document is a tree, as in M_Serde.v.

    Generated code does not panic, and reading the parts does not either; so reading is a partial
    function here, and in which order the parts are read makes no difference. *)
From Coq Require Import String ZArith List Bool.
From Verif Require Import M_Outcome M_Ints M_Ratio M_Float M_Value M_Types M_Qualifier M_Stat M_HashMap M_Pair M_Defaults M_Querier M_Poison M_Serde.
Import ListNotations.
Local Open Scope Z_scope.

(** [Serialize] and [Deserialize] of a type. *)
Record leaf (A : Type) : Type := Leaf { wr : A -> doc; rd : doc -> option A }.
Arguments Leaf {A}. Arguments wr {A}. Arguments rd {A}.

(** serde's own implementations: [bool]; a primitive integer, which refuses what is out of range;
    [PhantomData] and unit structs. *)
Definition leaf_bool : leaf bool := Leaf DBool (fun d => match d with DBool b => Some b | _ => None end).
Definition leaf_int (t : ity) : leaf Z :=
  Leaf DInt (fun d => match d with DInt z => if in_range t z then Some z else None | _ => None end).
(** An [Int]: [Wrapping<T>] is read as [T] is, [Saturating<T>] saturates (serde 1). *)
Definition leaf_num (T : intp) : leaf Z :=
  match i_flav T with
  | FSaturating => Leaf DInt (fun d => match d with DInt z => Some (sat (i_ty T) z) | _ => None end)
  | _ => leaf_int (i_ty T)
  end.
Definition leaf_unit : leaf unit := Leaf (fun _ => DNull) (fun d => match d with DNull => Some tt | _ => None end).
(** [Box<str>], [String]. *)
Definition leaf_str : leaf string := Leaf DStr (fun d => match d with DStr s => Some s | _ => None end).

Section Derive.
  (** As in M_Serde.v: field and variant names are written, or left out; elements left over in a
      sequence are refused, or not. *)
  Variable named strict : bool.

  (** *** Structs *)
  Fixpoint index_of (n : string) (l : list string) : option nat :=
    match l with [] => None | x :: l' => if String.eqb n x then Some 0%nat else option_map S (index_of n l') end.
  Fixpoint set_nth {A} (i : nat) (a : A) (l : list A) : list A :=
    match l, i with [], _ => [] | _ :: l', O => a :: l' | x :: l', S i' => x :: set_nth i' a l' end.
  Fixpoint all_some {A} (l : list (option A)) : option (list A) :=
    match l with
    | [] => Some []
    | Some a :: l' => option_map (cons a) (all_some l')
    | None :: _ => None
    end.
  (** [visit_map]: fields by name in the order of the document, unknown ones skipped, a repeated
      one refused, and in the end a missing one. No field of these types is an [Option], so there
      is no default for a missing field. *)
  Fixpoint visit_map (names : list string) (got : list (option doc)) (l : list (string * doc)) : option (list doc) :=
    match l with
    | [] => all_some got
    | (n, d) :: l' =>
        match index_of n names with
        | None => visit_map names got l'
        | Some i => match nth_error got i with
                    | Some None => visit_map names (set_nth i (Some d) got) l'
                    | _ => None
                    end
        end
    end.
  Definition surplus (l : list doc) : bool := strict && match l with [] => false | _ => true end.
  (** [visit_seq]: fields in the order of the declaration. *)
  Definition visit_seq (n : nat) (l : list doc) : option (list doc) :=
    if Nat.ltb (List.length l) n then None else if surplus (skipn n l) then None else Some (firstn n l).
  Definition fields_of (names : list string) (d : doc) : option (list doc) :=
    match d with
    | DMap l => visit_map names (map (fun _ => None) names) l
    | DSeq l => visit_seq (List.length names) l
    | _ => None
    end.

  (** *** Enums: a variant by its name, alone or with its content, or by its number. *)
  Definition variant_doc (i : nat) (n : string) (c : option doc) : doc :=
    if named then match c with None => DStr n | Some d => DMap [(n, d)] end
    else DSeq (DInt (Z.of_nat i) :: match c with None => [] | Some d => [d] end).
  Definition by_number (k : nat) (i : Z) (c : option doc) : option (nat * option doc) :=
    if (0 <=? i) && (i <? Z.of_nat k) then Some (Z.to_nat i, c) else None.
  Definition variant_of (names : list string) (d : doc) : option (nat * option doc) :=
    if named then
      match d with
      | DStr n => option_map (fun i => (i, None)) (index_of n names)
      | DMap [(n, c)] => option_map (fun i => (i, Some c)) (index_of n names)
      | _ => None
      end
    else
      match d with
      | DSeq [DInt i] => by_number (List.length names) i None
      | DSeq [DInt i; c] => by_number (List.length names) i (Some c)
      | _ => None
      end.
  (** The content of a unit variant: nothing, or null under the name of the variant. *)
  Definition no_content (c : option doc) : bool :=
    match c with None => true | Some DNull => named | Some _ => false end.

  (** *** [Fraction] (src/num_traits.rs:286-291): transparent over [Ratio], which is written as the
      pair of numerator and denominator, and read without being reduced; only a zero denominator
      is refused (num-rational 0.4). *)
  Definition leaf_ratio (I : leaf Z) : leaf ratio := {|
    wr := fun r => DSeq [wr I (numer r); wr I (denom r)];
    rd := fun d => match d with
      | DSeq (a :: b :: rest) =>
          match rd I a, rd I b with
          | Some n, Some m => if surplus rest then None else if m =? 0 then None else Some (Frac n m)
          | _, _ => None
          end
      | _ => None
      end |}.

  (** *** Value types *)
  (** Fields [addend min max mult]: [StatInt] (src/types/int_ratio.rs:13-20), [StatFloat] and
      [StatFloatAdditive] (src/types/float.rs:7-14, 75-82). *)
  Definition leaf_quad {A M} (LA : leaf A) (LM : leaf M) : leaf (quad A M) := {|
    wr := fun v => ser_struct named [("addend", wr LA (addend v)); ("min", wr LA (vmin v)); ("max", wr LA (vmax v)); ("mult", wr LM (mult v))]%string;
    rd := fun d => match fields_of ["addend"; "min"; "max"; "mult"]%string d with
      | Some [a; lo; hi; m] =>
          match rd LA a, rd LA lo, rd LA hi, rd LM m with Some a, Some lo, Some hi, Some m => Some (Quad a lo hi m) | _, _, _, _ => None end
      | _ => None
      end |}.
  (** ... and [rounding]: [StatIntFraction] and [StatIntFloatMul] (src/types/int_ratio.rs:81-91, 158-166). *)
  Definition leaf_rounded {A M} (LA : leaf A) (LM : leaf M) : leaf (quad A M) := {|
    wr := fun v => ser_struct named [("addend", wr LA (addend v)); ("min", wr LA (vmin v)); ("max", wr LA (vmax v));
                                     ("mult", wr LM (mult v)); ("rounding", wr leaf_unit tt)]%string;
    rd := fun d => match fields_of ["addend"; "min"; "max"; "mult"; "rounding"]%string d with
      | Some [a; lo; hi; m; r] =>
          match rd LA a, rd LA lo, rd LA hi, rd LM m, rd leaf_unit r with
          | Some a, Some lo, Some hi, Some m, Some _ => Some (Quad a lo hi m) | _, _, _, _, _ => None end
      | _ => None
      end |}.
  (** Fields [addend mult min max rounding]: [StatIntPercentAdditive] and [StatIntPercent]
      (src/types/int_pct.rs:13-21, 89-99). *)
  Definition leaf_percent {A M} (LA : leaf A) (LM : leaf M) : leaf (quad A M) := {|
    wr := fun v => ser_struct named [("addend", wr LA (addend v)); ("mult", wr LM (mult v)); ("min", wr LA (vmin v));
                                     ("max", wr LA (vmax v)); ("rounding", wr leaf_unit tt)]%string;
    rd := fun d => match fields_of ["addend"; "mult"; "min"; "max"; "rounding"]%string d with
      | Some [a; m; lo; hi; r] =>
          match rd LA a, rd LM m, rd LA lo, rd LA hi, rd leaf_unit r with
          | Some a, Some m, Some lo, Some hi, Some _ => Some (Quad a lo hi m) | _, _, _, _, _ => None end
      | _ => None
      end |}.
  (** [StatMult] (src/types/float.rs:145-151) *)
  Definition leaf_mult {F : FloatT} (LF : leaf (fcar F)) : leaf (tri F) := {|
    wr := fun v => ser_struct named [("min", wr LF (t_min v)); ("max", wr LF (t_max v)); ("mult", wr LF (t_mult v))]%string;
    rd := fun d => match fields_of ["min"; "max"; "mult"]%string d with
      | Some [lo; hi; m] => match rd LF lo, rd LF hi, rd LF m with Some lo, Some hi, Some m => Some (Tri lo hi m) | _, _, _ => None end
      | _ => None
      end |}.
  (** [StatFlags] (src/types/flags.rs:10-15) *)
  Definition leaf_flags {G : FlagsT} (LG : leaf (gcar G)) : leaf (flagsV G) := {|
    wr := fun v => ser_struct named [("not", wr LG (f_not v)); ("or", wr LG (f_or v))]%string;
    rd := fun d => match fields_of ["not"; "or"]%string d with
      | Some [n; o] => match rd LG n, rd LG o with Some n, Some o => Some (FlagsV n o) | _, _ => None end
      | _ => None
      end |}.
  (** [StatExists(bool)] (src/types/singleton.rs:9-11): a newtype is written as its content. *)
  Definition leaf_exists : leaf bool := leaf_bool.
  (** [StatOnce] (src/types/singleton.rs:41-48) *)
  Definition once_variants : list string := ["NotFound"; "Found"; "FoundMultiple"]%string.
  Definition leaf_once {A} (LA : leaf A) : leaf (once A) := {|
    wr := fun v => match v with
      | NotFound => variant_doc 0 "NotFound" None
      | Found a => variant_doc 1 "Found" (Some (wr LA a))
      | FoundMultiple => variant_doc 2 "FoundMultiple" None
      end;
    rd := fun d => match variant_of once_variants d with
      | Some (0%nat, c) => if no_content c then Some NotFound else None
      | Some (1%nat, Some c) => option_map Found (rd LA c)
      | Some (2%nat, c) => if no_content c then Some FoundMultiple else None
      | _ => None
      end |}.
  (** [Prioritized] (src/types/prioritized.rs:10-15) *)
  Definition leaf_prio {A} (LA : leaf A) : leaf (prio A) := {|
    wr := fun v => ser_struct named [("value", wr LA (p_value v)); ("priority", wr (leaf_int I32) (p_priority v))]%string;
    rd := fun d => match fields_of ["value"; "priority"]%string d with
      | Some [v; p] => match rd LA v, rd (leaf_int I32) p with Some v, Some p => Some (Prio v p) | _, _ => None end
      | _ => None
      end |}.

  (** *** [StatOperation] (src/operations.rs:5-14); [Unsupported] (41-42) has no variants. *)
  Definition leaf_none : leaf Empty_set := Leaf (fun e : Empty_set => match e return doc with end) (fun _ => None).
  Definition op_variants : list string := ["Add"; "Mul"; "Or"; "Not"; "Min"; "Max"; "Base"]%string.
  Definition leaf_op {S : StatValue} (La : leaf (addT S)) (Lm : leaf (mulT S)) (Lb : leaf (bitT S)) (Lr : leaf (boundsT S)) (Lz : leaf (baseT S)) : leaf (stat_op S) := {|
    wr := fun o => match o with
      | OAdd x => variant_doc 0 "Add" (Some (wr La x))
      | OMul x => variant_doc 1 "Mul" (Some (wr Lm x))
      | OOr x => variant_doc 2 "Or" (Some (wr Lb x))
      | ONot x => variant_doc 3 "Not" (Some (wr Lb x))
      | OMin x => variant_doc 4 "Min" (Some (wr Lr x))
      | OMax x => variant_doc 5 "Max" (Some (wr Lr x))
      | OBase x => variant_doc 6 "Base" (Some (wr Lz x))
      end;
    rd := fun d => match variant_of op_variants d with
      | Some (0%nat, Some c) => option_map OAdd (rd La c)
      | Some (1%nat, Some c) => option_map OMul (rd Lm c)
      | Some (2%nat, Some c) => option_map OOr (rd Lb c)
      | Some (3%nat, Some c) => option_map ONot (rd Lb c)
      | Some (4%nat, Some c) => option_map OMin (rd Lr c)
      | Some (5%nat, Some c) => option_map OMax (rd Lr c)
      | Some (6%nat, Some c) => option_map OBase (rd Lz c)
      | _ => None
      end |}.

  (** *** [StatCache] (src/cache.rs:22-27): its only field is skipped, and is a new one after
      loading. [StatEntity] (src/querier.rs:23-25) is a unit struct. *)
  Definition leaf_cache {P Q} : leaf (pcache P Q) := {|
    wr := fun _ => ser_struct named [];
    rd := fun d => match fields_of [] d with Some _ => Some (PCache [] false) | None => None end |}.
  Definition leaf_entity : leaf unit := leaf_unit.
End Derive.

(** The implementations of a whole program, and of its flags. *)
Definition leaf_codec (P : Prog) (Q : QFlag) (named strict : bool) (serial : sty P -> bool) (L : forall t, leaf (val (VT P t))) (LQ : leaf (qcar Q)) : Codec P Q :=
  @Build_Codec P Q named strict serial
    (fun t v => ok (wr (L t) v)) (fun t d => match rd (L t) d with Some v => ok v | None => err end)
    (fun x => ok (wr LQ x)) (fun d => match rd LQ d with Some x => ok x | None => err end).
