(** C62: what the derived [Serialize] and [Deserialize] of this crate's own types make of values and documents. *)
From Coq Require Import String ZArith List Bool.
From Flocq Require Import Core BinarySingleNaN.
From Verif Require Import M_Outcome M_Ints M_Ratio M_Float M_Value M_Types M_Qualifier M_Search M_Stat M_StatMap M_HashMap M_Pair M_Registry M_Defaults M_Querier M_Poison M_Serde M_ValueSerde
  S_Search S_StatMap S_Demo S_Registry S_Serde S_Totals S_ValueSerde
  L_ValueSerde L_ValueSerde2 L_ValueSerde3 L_ValueSerde4.
Import ListNotations.
Local Open Scope Z_scope.

(** A struct is read from exactly the documents that give each field once by name, or all of them
    in order. *)
Theorem C62_struct :
  forall strict names d ds, NoDup names -> (fields_of strict names d = Some ds <-> fields_are strict names d ds).
Proof. exact C62_struct_proof. Qed.
Print Assumptions C62_struct.
Example C62_struct_case :
  fields_of true ["not"; "or"]%string (DMap [("or", DInt 1); ("extra", DNull); ("not", DInt 2)]%string) = Some [DInt 2; DInt 1] /\
  fields_of true ["not"; "or"]%string (DMap [("or", DInt 1); ("or", DInt 1); ("not", DInt 2)]%string) = None /\
  fields_of true ["not"; "or"]%string (DSeq [DInt 2; DInt 1; DInt 0]) = None /\
  fields_of false ["not"; "or"]%string (DSeq [DInt 2; DInt 1; DInt 0]) = Some [DInt 2; DInt 1].
Proof. vm_compute. auto. Qed.

(** A variant of an enum, by its name where names are written, by its number where they are not. *)
Theorem C62_variant :
  forall named names d i c, NoDup names -> (variant_of named names d = Some (i, c) <-> variant_is named names d i c).
Proof. exact C62_variant_proof. Qed.
Print Assumptions C62_variant.
Example C62_variant_case :
  variant_of true op_variants (DMap [("Not", DInt 1)]%string) = Some (3%nat, Some (DInt 1)) /\
  variant_of false op_variants (DSeq [DInt 3; DInt 1]) = Some (3%nat, Some (DInt 1)) /\
  variant_of false op_variants (DSeq [DInt 7; DInt 1]) = None.
Proof. vm_compute. auto. Qed.

(** What each type is read from. *)
Theorem C62_number :
  forall T d z, rd (leaf_num T) d = Some z <->
  exists x, d = DInt x /\ match i_flav T with FSaturating => z = sat (i_ty T) x | _ => z = x /\ small (i_ty T) x end.
Proof. exact C62_number_proof. Qed.
Print Assumptions C62_number.
Example C62_number_case :
  rd (leaf_num {| i_ty := I8; i_flav := FWrapping |}) (DInt 200) = None /\
  rd (leaf_num {| i_ty := I8; i_flav := FSaturating |}) (DInt 200) = Some 127.
Proof. vm_compute. auto. Qed.

Theorem C62_reads_fraction :
  forall strict (I : leaf Z) d r, rd (leaf_ratio strict I) d = Some r <->
  exists a b, pair_is strict d a b /\ rd I a = Some (numer r) /\ rd I b = Some (denom r) /\ denom r <> 0.
Proof. exact ratio_iff. Qed.
Print Assumptions C62_reads_fraction.
Example C62_reads_fraction_case :
  rd (leaf_ratio true (leaf_int I8)) (DSeq [DInt 6; DInt (-4)]) = Some (Frac 6 (-4)) /\
  rd (leaf_ratio true (leaf_int I8)) (DSeq [DInt 6; DInt 0]) = None.
Proof. vm_compute. auto. Qed.

(** [StatInt], [StatFloat], [StatFloatAdditive] *)
Theorem C62_reads_four_fields :
  forall named strict A M (LA : leaf A) (LM : leaf M) d v, rd (leaf_quad named strict LA LM) d = Some v <->
  exists a lo hi m, fields_are strict ["addend"; "min"; "max"; "mult"]%string d [a; lo; hi; m] /\
    rd LA a = Some (addend v) /\ rd LA lo = Some (vmin v) /\ rd LA hi = Some (vmax v) /\ rd LM m = Some (mult v).
Proof. exact C62_reads_four_fields_proof. Qed.
Print Assumptions C62_reads_four_fields.
Example C62_reads_four_fields_case :
  rd (leaf_quad true true (leaf_int I8) (leaf_int I8)) (DMap [("mult", DInt 4); ("max", DInt 3); ("min", DInt 2); ("addend", DInt 1)]%string) = Some (Quad 1 2 3 4) /\
  rd (leaf_quad true true (leaf_int I8) (leaf_int I8)) (DSeq [DInt 1; DInt 2; DInt 3; DInt 4]) = Some (Quad 1 2 3 4).
Proof. vm_compute. auto. Qed.

(** [StatIntFraction], [StatIntFloatMul] *)
Theorem C62_reads_rounded :
  forall named strict A M (LA : leaf A) (LM : leaf M) d v, rd (leaf_rounded named strict LA LM) d = Some v <->
  exists a lo hi m, fields_are strict ["addend"; "min"; "max"; "mult"; "rounding"]%string d [a; lo; hi; m; DNull] /\
    rd LA a = Some (addend v) /\ rd LA lo = Some (vmin v) /\ rd LA hi = Some (vmax v) /\ rd LM m = Some (mult v).
Proof. exact C62_reads_rounded_proof. Qed.
Print Assumptions C62_reads_rounded.
Example C62_reads_rounded_case :
  rd frac_codec (frac_doc 3 5 7) = Some (Quad 3 (-128) 127 (Frac 5 7)) /\
  rd frac_codec (DSeq [DInt 3; DInt 0; DInt 9; DSeq [DInt 5; DInt 7]; DInt 1]) = None.
Proof. vm_compute. auto. Qed.

(** [StatIntPercentAdditive], [StatIntPercent]: another order of fields. *)
Theorem C62_reads_percent :
  forall named strict A M (LA : leaf A) (LM : leaf M) d v, rd (leaf_percent named strict LA LM) d = Some v <->
  exists a lo hi m, fields_are strict ["addend"; "mult"; "min"; "max"; "rounding"]%string d [a; m; lo; hi; DNull] /\
    rd LA a = Some (addend v) /\ rd LA lo = Some (vmin v) /\ rd LA hi = Some (vmax v) /\ rd LM m = Some (mult v).
Proof. exact C62_reads_percent_proof. Qed.
Print Assumptions C62_reads_percent.
Example C62_reads_percent_case :
  rd (leaf_percent false true (leaf_int I8) (leaf_int I8)) (DSeq [DInt 1; DInt 2; DInt 3; DInt 4; DNull]) = Some (Quad 1 3 4 2).
Proof. vm_compute. auto. Qed.

Theorem C62_reads_mult :
  forall named strict F (LF : leaf (fcar F)) d v, rd (leaf_mult named strict LF) d = Some v <->
  exists lo hi m, fields_are strict ["min"; "max"; "mult"]%string d [lo; hi; m] /\
    rd LF lo = Some (t_min v) /\ rd LF hi = Some (t_max v) /\ rd LF m = Some (t_mult v).
Proof. exact mult_iff. Qed.
Print Assumptions C62_reads_mult.
Example C62_reads_mult_case :
  rd (leaf_mult (F:=fracF true I8) true true (leaf_ratio true (leaf_int I8))) (DSeq [DSeq [DInt 0; DInt 1]; DSeq [DInt 9; DInt 1]; DSeq [DInt 1; DInt 2]]) =
  Some (@Tri (fracF true I8) (Frac 0 1) (Frac 9 1) (Frac 1 2)).
Proof. vm_compute. auto. Qed.

Theorem C62_reads_flags :
  forall named strict G (LG : leaf (gcar G)) d v, rd (leaf_flags named strict LG) d = Some v <->
  exists n o, fields_are strict ["not"; "or"]%string d [n; o] /\ rd LG n = Some (f_not v) /\ rd LG o = Some (f_or v).
Proof. exact flags_iff. Qed.
Print Assumptions C62_reads_flags.
Example C62_reads_flags_case :
  rd (leaf_flags (G:=zflags) true true (leaf_int U8)) (DSeq [DInt 2; DInt 5]) = Some (@FlagsV zflags 2 5).
Proof. vm_compute. auto. Qed.

Theorem C62_reads_prioritized :
  forall named strict A (LA : leaf A) d v, rd (leaf_prio named strict LA) d = Some v <->
  exists x p, fields_are strict ["value"; "priority"]%string d [x; p] /\ rd LA x = Some (p_value v) /\ rd (leaf_int I32) p = Some (p_priority v).
Proof. exact C62_reads_prioritized_proof. Qed.
Print Assumptions C62_reads_prioritized.
Example C62_reads_prioritized_case :
  rd (leaf_prio true true leaf_str) (DMap [("priority", DInt (-1)); ("value", DStr "a")]%string) = Some (Prio "a"%string (-1)).
Proof. vm_compute. auto. Qed.

Theorem C62_reads_once :
  forall named A (LA : leaf A) d v, rd (leaf_once named LA) d = Some v <->
  match v with
  | NotFound => unit_is named once_variants d 0
  | Found a => exists x, variant_is named once_variants d 1 (Some x) /\ rd LA x = Some a
  | FoundMultiple => unit_is named once_variants d 2
  end.
Proof. exact C62_reads_once_proof. Qed.
Print Assumptions C62_reads_once.
Example C62_reads_once_case :
  rd (leaf_once true leaf_str) (DMap [("Found", DStr "a")]%string) = Some (Found "a"%string) /\
  rd (leaf_once true leaf_str) (DStr "FoundMultiple") = Some FoundMultiple /\
  rd (leaf_once true leaf_str) (DStr "Found") = None.
Proof. vm_compute. auto. Qed.

Theorem C62_reads_operation :
  forall named S (La : leaf (addT S)) Lm Lb Lr Lz d o, rd (leaf_op named La Lm Lb Lr Lz) d = Some o <->
  match o with
  | OAdd x => exists c, variant_is named op_variants d 0 (Some c) /\ rd La c = Some x
  | OMul x => exists c, variant_is named op_variants d 1 (Some c) /\ rd Lm c = Some x
  | OOr x => exists c, variant_is named op_variants d 2 (Some c) /\ rd Lb c = Some x
  | ONot x => exists c, variant_is named op_variants d 3 (Some c) /\ rd Lb c = Some x
  | OMin x => exists c, variant_is named op_variants d 4 (Some c) /\ rd Lr c = Some x
  | OMax x => exists c, variant_is named op_variants d 5 (Some c) /\ rd Lr c = Some x
  | OBase x => exists c, variant_is named op_variants d 6 (Some c) /\ rd Lz c = Some x
  end.
Proof. exact op_iff. Qed.
Print Assumptions C62_reads_operation.
Example C62_reads_operation_case :
  rd (leaf_op (S:=statInt true (prim I8)) true (leaf_int I8) (leaf_int I8) leaf_none (leaf_int I8) (leaf_int I8)) (DMap [("Max", DInt 5)]%string)
  = Some (@OMax (statInt true (prim I8)) 5) /\
  rd (leaf_op (S:=statInt true (prim I8)) true (leaf_int I8) (leaf_int I8) leaf_none (leaf_int I8) (leaf_int I8)) (DMap [("Or", DInt 5)]%string) = None.
Proof. vm_compute. auto. Qed.

(** What is written is read back, in formats with and without names. *)
Theorem C62_round_trip :
  forall named strict,
  (forall T z, small (i_ty T) z -> back (leaf_num T) z) /\
  (forall t r, small_ratio t r -> back (leaf_ratio strict (leaf_int t)) r) /\
  (forall A M (LA : leaf A) (LM : leaf M) v, back LA (addend v) -> back LA (vmin v) -> back LA (vmax v) -> back LM (mult v) ->
     back (leaf_quad named strict LA LM) v /\ back (leaf_rounded named strict LA LM) v /\ back (leaf_percent named strict LA LM) v) /\
  (forall F (LF : leaf (fcar F)) v, back LF (t_min v) -> back LF (t_max v) -> back LF (t_mult v) -> back (leaf_mult named strict LF) v) /\
  (forall G (LG : leaf (gcar G)) v, back LG (f_not v) -> back LG (f_or v) -> back (leaf_flags named strict LG) v) /\
  (forall b, back leaf_exists b) /\
  (forall A (LA : leaf A) v, (forall a, v = Found a -> back LA a) -> back (leaf_once named LA) v) /\
  (forall A (LA : leaf A) v, back LA (p_value v) -> small I32 (p_priority v) -> back (leaf_prio named strict LA) v).
Proof. exact C62_round_trip_proof. Qed.
Print Assumptions C62_round_trip.
Example C62_round_trip_case :
  wr frac_codec (Quad 3 (-128) 127 (Frac 5 7)) = frac_doc 3 5 7 /\ back frac_codec (Quad 3 (-128) 127 (Frac 5 7)) /\
  back (leaf_once false leaf_str) (Found "a"%string).
Proof. vm_compute. auto. Qed.

Theorem C62_operations :
  forall named S (La : leaf (addT S)) Lm Lb Lr Lz o, op_back La Lm Lb Lr Lz o -> back (leaf_op named La Lm Lb Lr Lz) o.
Proof. exact C62_operations_proof. Qed.
Print Assumptions C62_operations.
Example C62_operations_case :
  op_back (S:=statFlags boolflags) leaf_none leaf_none leaf_bool leaf_none leaf_bool (@ONot (statFlags boolflags) true) /\
  wr (leaf_op (S:=statFlags boolflags) false leaf_none leaf_none leaf_bool leaf_none leaf_bool) (@ONot (statFlags boolflags) true) = DSeq [DInt 3; DBool true].
Proof. vm_compute. auto. Qed.

(** No document is an operation the stat does not have. *)
Theorem C62_unsupported : forall d, rd leaf_none d = None.
Proof. exact C62_unsupported_proof. Qed.
Print Assumptions C62_unsupported.
Example C62_unsupported_case : rd leaf_none DNull = None.
Proof. vm_compute. auto. Qed.

(** Whatever document is accepted, the numbers of the loaded stat are numbers of its type, and no
    denominator is zero. *)
Theorem C62_loaded_in_range :
  forall named strict (T : intp),
  (forall d v, rd (leaf_quad named strict (leaf_num T) (leaf_num T)) d = Some v -> small_quad (i_ty T) (small (i_ty T)) v) /\
  (forall d v, rd (leaf_percent named strict (leaf_num T) (leaf_num T)) d = Some v -> small_quad (i_ty T) (small (i_ty T)) v) /\
  (forall d v, rd (leaf_rounded named strict (leaf_num T) (leaf_ratio strict (leaf_int (i_ty T)))) d = Some v -> small_quad (i_ty T) (small_ratio (i_ty T)) v) /\
  (forall d v, rd (leaf_percent named strict (leaf_num T) (leaf_ratio strict (leaf_int (i_ty T)))) d = Some v -> small_quad (i_ty T) (small_ratio (i_ty T)) v).
Proof. exact C62_loaded_in_range_proof. Qed.
Print Assumptions C62_loaded_in_range.
Example C62_loaded_in_range_case : rd frac_codec (frac_doc 3 5 7) <> None /\ rd frac_codec (frac_doc 300 5 7) = None /\ rd frac_codec (frac_doc 3 5 0) = None.
Proof. vm_compute. repeat split. discriminate. Qed.

(** Whatever a stat has gone through, with and without overflow checks: if that did not panic, it
    is loaded as it was saved. *)
Theorem C62_built_int :
  forall oc T named strict (h : history (statInt oc T)) v,
  operands (op_of (S:=statInt oc T) (small (i_ty T)) (small (i_ty T)) (small (i_ty T)) (small (i_ty T))) h -> value_of h = Done v ->
  back (leaf_quad named strict (leaf_num T) (leaf_num T)) v.
Proof. exact C62_built_int_proof. Qed.
Print Assumptions C62_built_int.
Example C62_built_int_case :
  let h := Applied (Joined (@FromBase (statInt false (prim I8)) 100) (@FromBase (statInt false (prim I8)) 100)) (@OMul (statInt false (prim I8)) 3) in
  operands (op_of (S:=statInt false (prim I8)) (small I8) (small I8) (small I8) (small I8)) h /\ value_of h = Done (Quad (-56) (-128) 127 3).
Proof. vm_compute. auto 10. Qed.

Theorem C62_built_fraction :
  forall oc T R named strict (h : history (statIntFraction oc T R)) v,
  operands (op_of (S:=statIntFraction oc T R) (small (i_ty T)) (small_ratio (i_ty T)) (small (i_ty T)) (small (i_ty T))) h -> value_of h = Done v ->
  back (leaf_rounded named strict (leaf_num T) (leaf_ratio strict (leaf_int (i_ty T)))) v.
Proof. exact C62_built_fraction_proof. Qed.
Print Assumptions C62_built_fraction.
Example C62_built_fraction_case :
  let h := Applied (@FromBase (statIntFraction true (prim I8) Round) 69) (@OMul (statIntFraction true (prim I8) Round) (Frac (-43) 47)) in
  operands (op_of (S:=statIntFraction true (prim I8) Round) (small I8) (small_ratio I8) (small I8) (small I8)) h /\
  value_of h = Done (Quad 69 (-128) 127 (Frac (-43) 47)).
Proof. vm_compute. repeat split; discriminate. Qed.

Theorem C62_built_percent_additive :
  forall oc T R scale named strict (h : history (statPctAdd oc T R scale)) v,
  operands (op_of (S:=statPctAdd oc T R scale) (small (i_ty T)) (small (i_ty T)) (small (i_ty T)) (small (i_ty T))) h -> value_of h = Done v ->
  back (leaf_percent named strict (leaf_num T) (leaf_num T)) v.
Proof. exact C62_built_percent_additive_proof. Qed.
Print Assumptions C62_built_percent_additive.
Example C62_built_percent_additive_case :
  let h := Applied (@FromBase (statPctAdd true (prim I32) Round 100) 420) (@OMul (statPctAdd true (prim I32) Round 100) 32) in
  operands (op_of (S:=statPctAdd true (prim I32) Round 100) (small I32) (small I32) (small I32) (small I32)) h /\
  value_of h = Done (Quad 420 (-2147483648) 2147483647 32).
Proof. vm_compute. auto 10. Qed.

Theorem C62_built_percent :
  forall oc T R scale named strict (h : history (statPct oc T R scale)) v,
  operands (op_of (S:=statPct oc T R scale) (small (i_ty T)) (small (i_ty T)) (small (i_ty T)) (small (i_ty T))) h -> value_of h = Done v ->
  back (leaf_percent named strict (leaf_num T) (leaf_ratio strict (leaf_int (i_ty T)))) v.
Proof. exact C62_built_percent_proof. Qed.
Print Assumptions C62_built_percent.
Example C62_built_percent_case :
  let h := Applied (@FromBase (statPct true (prim I32) Round 100) 420) (@OMul (statPct true (prim I32) Round 100) 32) in
  operands (op_of (S:=statPct true (prim I32) Round 100) (small I32) (small I32) (small I32) (small I32)) h /\
  value_of h = Done (Quad 420 (-2147483648) 2147483647 (Frac 8 25)).
Proof. vm_compute. auto 10. Qed.

Theorem C62_built_float_mul :
  forall prec emax (Hp : Prec_gt_0 prec) (He : Prec_lt_emax prec emax) oc t R named strict (LF : leaf (binary_float prec emax)),
  (forall x, back LF x) -> forall (h : history (statIntFloatMul prec emax Hp He oc t R)) v,
  operands (op_of (S:=statIntFloatMul prec emax Hp He oc t R) (small t) (fun _ => True) (small t) (small t)) h -> value_of h = Done v ->
  back (leaf_rounded named strict (leaf_int t) LF) v.
Proof. exact C62_built_float_mul_proof. Qed.
Print Assumptions C62_built_float_mul.
Example C62_built_float_mul_case :
  let S := statIntFloatMul 24 128 prec24 emax128 true I32 Round in
  let h := Applied (@FromBase S 420) (@OMax S 7) in
  operands (op_of (S:=S) (small I32) (fun _ => True) (small I32) (small I32)) h /\ exists v, value_of h = Done v /\ vmax v = 7.
Proof. split; [repeat split|eexists; split; reflexivity]. Qed.

Theorem C62_built_flags :
  forall t named strict (h : history (statFlags zflags)) v,
  operands (flag_op t) h -> value_of h = Done v -> back (leaf_flags (G:=zflags) named strict (leaf_int t)) v.
Proof. exact C62_built_flags_proof. Qed.
Print Assumptions C62_built_flags.
Example C62_built_flags_case :
  let h := Applied (@FromBase (statFlags zflags) 32) (@ONot (statFlags zflags) (-128)) in
  operands (flag_op I8) h /\ value_of h = Done (@FlagsV zflags (-128) 32).
Proof. vm_compute. auto. Qed.

Theorem C62_built_once :
  forall A (LA : leaf A) named (h : history (statOnce A)) v,
  operands (once_op LA) h -> value_of h = Done v -> back (leaf_once named LA) v.
Proof. exact C62_built_once_proof. Qed.
Print Assumptions C62_built_once.
Example C62_built_once_case :
  let h := Applied (@FromDefault (statOnce string)) (@OOr (statOnce string) "Ferris"%string) in
  operands (once_op leaf_str) h /\ value_of h = Done (Found "Ferris"%string).
Proof. vm_compute. auto. Qed.

Theorem C62_built_prioritized :
  forall A (LA : leaf A) dflt last named strict (h : history (prioritized A dflt last)) v,
  back LA dflt -> operands (prio_op LA dflt last) h -> value_of h = Done v -> back (leaf_prio named strict LA) v.
Proof. exact C62_built_prioritized_proof. Qed.
Print Assumptions C62_built_prioritized.
Example C62_built_prioritized_case :
  let h := Joined (@FromBase (prioritized string ""%string true) (Prio "a"%string (-3))) (@FromBase (prioritized string ""%string true) (Prio "b"%string 2)) in
  operands (prio_op leaf_str ""%string true) h /\ value_of h = Done (Prio "b"%string (-3)).
Proof. vm_compute. auto 10. Qed.

(** A map filled with such values by any calls is loaded as it was saved. *)
Theorem C62_maps :
  forall (P : Prog) (Q : QFlag) (N : StatNames P) (bs : list comparison -> bsres) named strict serial (L : forall t, leaf (val (VT P t))) (LQ : leaf (qcar Q)),
  bs_contract bs -> distinct_vtables P -> lawful_ord (q_cmp Q) ->
  forall (r : registry P) (l : list (mop P Q)) (m : map_t P Q), Forall sound_op l -> Forall (retains (fun t => back (L t))) l ->
  mops_run bs [] l = Done m ->
  (forall e, In e m -> serial (si_ty (e_stat e)) = true /\ name_back N r (e_stat e) /\ back LQ (any_of (e_qual e)) /\ back LQ (all_of (e_qual e))) ->
  let C := leaf_codec P Q named strict serial L LQ in
  exists d, ser_map N C m = ok d /\ de_map C (WReg r) d = ok m.
Proof. exact C62_maps_proof. Qed.
Print Assumptions C62_maps.
Example C62_maps_case :
  Forall (@retains demo intQ (fun t => back (demo_leaf t))) [put_atk none 4; put_alive none true; put_hp fire 3] /\
  exists d, derived_saved [put_atk none 4; put_alive none true; put_hp fire 3] = Some d /\ get_hp (derived_load d) fire = Done (Some (num 3)).
Proof. split; [repeat constructor|]. eexists. split; [vm_compute; reflexivity|]. vm_compute. reflexivity. Qed.

(** An entry is accepted exactly if its parts are: flags and value by their implementations, the
    name by the registry. *)
Theorem C62_entry_iff :
  forall (P : Prog) (Q : QFlag) named strict serial (L : forall t, leaf (val (VT P t))) (LQ : leaf (qcar Q)) (r : registry P) d e,
  de_entry (leaf_codec P Q named strict serial L LQ) (WReg r) d = ok e <->
  exists dq n dv rest d1 d2 v, d = DSeq (dq :: DStr n :: dv :: rest) /\ (strict = true -> rest = []) /\
    rd LQ d1 = Some (any_of (e_qual e)) /\ rd LQ d2 = Some (all_of (e_qual e)) /\
    ((exists l, dq = DMap l /\ S_Serde.under "any_of"%string l = [d1] /\ S_Serde.under "all_of"%string l = [d2]) \/
     (exists l, dq = DSeq (d1 :: d2 :: l) /\ (strict = true -> l = []))) /\
    reg_get r n = Some (e_stat e) /\ serial (si_ty (e_stat e)) = true /\ fits (e_stat e) /\
    rd (L (vt_value P (si_ty (e_stat e)))) dv = Some v /\ e_val e = Buf (vt_value P (si_ty (e_stat e))) v.
Proof. exact C62_entry_iff_proof. Qed.
Print Assumptions C62_entry_iff.
(** Reading a map returns, with a map or an error, if every registered stat has implementations. *)
Theorem C62_returns :
  forall (P : Prog) (Q : QFlag) named strict serial (L : forall t, leaf (val (VT P t))) (LQ : leaf (qcar Q)) (r : registry P),
  (forall n s, reg_get r n = Some s -> serial (si_ty s) = true /\ fits s) ->
  forall d, exists o, de_map (leaf_codec P Q named strict serial L LQ) (WReg r) d = Done o.
Proof. exact C62_returns_proof. Qed.
Print Assumptions C62_returns.
Example C62_entry_case :
  derived_how (DMap [("inner", DSeq [DSeq [DSeq [DInt 0; DInt 0]; DStr "Alive"; DBool true]])]%string) = Loaded /\
  derived_how (DMap [("inner", DSeq [DSeq [DSeq [DInt 0; DInt 0]; DStr "Alive"; DInt 1]])]%string) = Refused /\
  derived_how (DMap [("inner", DSeq [DSeq [DSeq [DInt 0; DNull]; DStr "Alive"; DBool true]])]%string) = Refused /\
  derived_how (DMap [("inner", DSeq [DSeq [DSeq [DInt 0; DInt 0]; DStr "alive"; DBool true]])]%string) = Refused.
Proof. vm_compute. repeat split. Qed.

(** The saved component of a cache is an empty cache. *)
Theorem C62_cache_empty :
  forall P Q named strict,
  (forall (c : pcache P Q), rd (@leaf_cache named strict P Q) (wr (@leaf_cache named strict P Q) c) = Some (PCache [] false)) /\
  (forall d (c : pcache P Q), rd (@leaf_cache named strict P Q) d = Some c -> c = PCache [] false).
Proof. exact C62_cache_empty_proof. Qed.
Print Assumptions C62_cache_empty.
Example C62_cache_empty_case :
  wr (@leaf_cache true true demo intQ) (PCache [] true) = DMap [] /\ rd (@leaf_cache true true demo intQ) (DMap []) = Some (PCache [] false).
Proof. split; reflexivity. Qed.

(** False: documents with equal fractions are equal stats. A fraction is not reduced when it is
    read, so [100/100] overflows where [1/1] does not. *)
Theorem C62_fraction_refuted :
  exists d d' v w,
  rd frac_codec d = Some v /\ rd frac_codec d' = Some w /\ addend v = addend w /\ vmin v = vmin w /\ vmax v = vmax w /\
  numer (mult v) * denom (mult w) = numer (mult w) * denom (mult v) /\
  frac_eval true w = Done 3 /\ frac_eval false w = Done 3 /\
  frac_eval true v = Panics POverflow /\ frac_eval false v = Done 0.
Proof. exact C62_fraction_refuted_proof. Qed.
Print Assumptions C62_fraction_refuted.
