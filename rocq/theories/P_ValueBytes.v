(** C72: what the derived implementations of this crate's own types make of values and bytes. *)
From Coq Require Import String Ascii ZArith List Bool SpecFloat.
From Flocq Require Import Core BinarySingleNaN.
From Verif Require Import M_Outcome M_Ints M_Ratio M_Float M_Value M_Types M_Qualifier M_Search M_Stat M_StatMap M_HashMap M_Pair M_Registry M_Defaults M_Querier M_Poison M_Serde M_Bytes M_ValueBytes
  S_Search S_StatMap S_Demo S_Registry S_Serde S_Bytes S_Totals S_ValueSerde S_ValueBytes
  L_ValueBytes L_ValueBytes2 L_ValueBytes3 L_ValueBytes4.
Import ListNotations.
Local Open Scope Z_scope.

(** Integers of every type: numbers of the type come back, exactly the bytes that spell a number
    are read, and only numbers of the type are. *)
Theorem C72_integers :
  forall t, (forall n, small t n -> bback (bleaf_int t) n) /\
  (forall bs n rest, Forall is_byte bs -> (btake (bleaf_int t) bs = ok (n, rest) <-> exists l, bs = l ++ rest /\ int_bytes t l n)) /\
  (forall bs n rest, Forall is_byte bs -> btake (bleaf_int t) bs = ok (n, rest) -> small t n).
Proof. exact C72_integers_proof. Qed.
Print Assumptions C72_integers.
Example C72_integers_case :
  bput (bleaf_int I8) (-2) = [254] /\ bput (bleaf_int I16) (-32768) = [255; 255; 3] /\ btake (bleaf_int I16) [255; 255; 4] = err /\
  bput (bleaf_int U128) 300 = [172; 2] /\ btake (bleaf_int I64) [1; 7] = ok (-1, [7]).
Proof. vm_compute. auto. Qed.

(** Floats: every float comes back, and four or eight bytes are the float with these bits. *)
Theorem C72_floats :
  (forall x, bback bleaf_f32 x) /\ (forall x, bback bleaf_f64 x) /\
  (forall bs x rest, btake bleaf_f32 bs = ok (x, rest) <-> exists l, bs = l ++ rest /\ List.length l = 4%nat /\ B2SF x = ieee 23 8 (little l)) /\
  (forall bs x rest, btake bleaf_f64 bs = ok (x, rest) <-> exists l, bs = l ++ rest /\ List.length l = 8%nat /\ B2SF x = ieee 52 11 (little l)).
Proof. exact C72_floats_proof. Qed.
Print Assumptions C72_floats.
Example C72_floats_case :
  bput bleaf_f32 (f32_of true 7 (-1)) = [0; 0; 96; 192] /\
  option_map the_float (got (btake bleaf_f32 [0; 0; 128; 127])) = Some (S754_infinity false) /\
  option_map the_float (got (btake bleaf_f32 [1; 0; 0; 0; 9])) = Some (S754_finite false 1 (-149)) /\
  option_map the_float (got (btake bleaf_f32 [1; 0; 0])) = None.
Proof. vm_compute. auto. Qed.

(** Structs: their fields, in the order of their declarations. *)
Theorem C72_fields :
  (forall (I : bleaf Z) bs r rest, btake (bleaf_ratio I) bs = ok (r, rest) <->
    exists b, btake I bs = ok (numer r, b) /\ btake I b = ok (denom r, rest) /\ denom r <> 0) /\
  (forall A M (LA : bleaf A) (LM : bleaf M) bs v rest, btake (bleaf_quad LA LM) bs = ok (v, rest) <->
    exists b1 b2 b3, btake LA bs = ok (addend v, b1) /\ btake LA b1 = ok (vmin v, b2) /\ btake LA b2 = ok (vmax v, b3) /\ btake LM b3 = ok (mult v, rest)) /\
  (forall A M (LA : bleaf A) (LM : bleaf M) bs v rest, btake (bleaf_percent LA LM) bs = ok (v, rest) <->
    exists b1 b2 b3, btake LA bs = ok (addend v, b1) /\ btake LM b1 = ok (mult v, b2) /\ btake LA b2 = ok (vmin v, b3) /\ btake LA b3 = ok (vmax v, rest)) /\
  (forall F (LF : bleaf (fcar F)) bs v rest, btake (bleaf_mult LF) bs = ok (v, rest) <->
    exists b1 b2, btake LF bs = ok (t_min v, b1) /\ btake LF b1 = ok (t_max v, b2) /\ btake LF b2 = ok (t_mult v, rest)) /\
  (forall G (LG : bleaf (gcar G)) bs v rest, btake (bleaf_flags LG) bs = ok (v, rest) <->
    exists b1, btake LG bs = ok (f_not v, b1) /\ btake LG b1 = ok (f_or v, rest)) /\
  (forall A (LA : bleaf A) bs v rest, btake (bleaf_prio LA) bs = ok (v, rest) <->
    exists b1, btake LA bs = ok (p_value v, b1) /\ btake (bleaf_int I32) b1 = ok (p_priority v, rest)).
Proof. exact C72_fields_proof. Qed.
Print Assumptions C72_fields.
Example C72_fields_case :
  btake (bleaf_quad (bleaf_int I8) (bleaf_int I8)) [1; 2; 3; 4] = ok (Quad 1 2 3 4, []) /\
  btake (bleaf_percent (bleaf_int I8) (bleaf_int I8)) [1; 2; 3; 4] = ok (Quad 1 3 4 2, []) /\
  btake (bleaf_ratio (bleaf_int I8)) [6; 252; 9] = ok (Frac 6 (-4), [9]) /\ btake (bleaf_ratio (bleaf_int I8)) [6; 0] = err.
Proof. vm_compute. auto. Qed.

(** Enums: the number of the variant and its content. No bytes are an operation that the stat does
    not have. *)
Theorem C72_variants :
  (forall A (LA : bleaf A) bs v rest, Forall is_byte bs -> (btake (bleaf_once LA) bs = ok (v, rest) <->
     exists l b, bs = l ++ b /\
     match v with
     | NotFound => varint 5 15 l 0 /\ b = rest
     | Found a => varint 5 15 l 1 /\ btake LA b = ok (a, rest)
     | FoundMultiple => varint 5 15 l 2 /\ b = rest
     end)) /\
  (forall S (La : bleaf (addT S)) Lm Lb Lr Lz bs o rest, Forall is_byte bs -> (btake (bleaf_op La Lm Lb Lr Lz) bs = ok (o, rest) <->
     exists l b, bs = l ++ b /\
     match o with
     | OAdd x => varint 5 15 l 0 /\ btake La b = ok (x, rest)
     | OMul x => varint 5 15 l 1 /\ btake Lm b = ok (x, rest)
     | OOr x => varint 5 15 l 2 /\ btake Lb b = ok (x, rest)
     | ONot x => varint 5 15 l 3 /\ btake Lb b = ok (x, rest)
     | OMin x => varint 5 15 l 4 /\ btake Lr b = ok (x, rest)
     | OMax x => varint 5 15 l 5 /\ btake Lr b = ok (x, rest)
     | OBase x => varint 5 15 l 6 /\ btake Lz b = ok (x, rest)
     end)) /\
  (forall bs e rest, btake bleaf_none bs <> ok (e, rest)).
Proof. exact C72_variants_proof. Qed.
Print Assumptions C72_variants.
Example C72_variants_case :
  btake (bleaf_once (bleaf_int I8)) [1; 255; 7] = ok (Found (-1), [7]) /\ btake (bleaf_once (bleaf_int I8)) [3] = err /\
  btake (bleaf_op (S:=statFlags boolflags) bleaf_none bleaf_none bleaf_bool bleaf_none bleaf_bool) [3; 1] = ok (@ONot (statFlags boolflags) true, []) /\
  btake (bleaf_op (S:=statFlags boolflags) bleaf_none bleaf_none bleaf_bool bleaf_none bleaf_bool) [0; 1] = err.
Proof. vm_compute. auto. Qed.

(** What is written is read back, whatever follows it; beginnings of it are refused. *)
Theorem C72_round_trip :
  (forall t r, small_ratio t r -> bback (bleaf_ratio (bleaf_int t)) r) /\
  (forall A M (LA : bleaf A) (LM : bleaf M) v, bback LA (addend v) -> bback LA (vmin v) -> bback LA (vmax v) -> bback LM (mult v) ->
     bback (bleaf_quad LA LM) v /\ bback (bleaf_percent LA LM) v) /\
  (forall F (LF : bleaf (fcar F)) v, bback LF (t_min v) -> bback LF (t_max v) -> bback LF (t_mult v) -> bback (bleaf_mult LF) v) /\
  (forall G (LG : bleaf (gcar G)) v, bback LG (f_not v) -> bback LG (f_or v) -> bback (bleaf_flags LG) v) /\
  (forall b, bback bleaf_exists b) /\
  (forall utf8 s, utf8 s = true -> Z.of_nat (String.length s) < 2 ^ 64 -> bback (bleaf_str utf8) s) /\
  (forall A (LA : bleaf A) v, (forall a, v = Found a -> bback LA a) -> bback (bleaf_once LA) v) /\
  (forall A (LA : bleaf A) v, bback LA (p_value v) -> small I32 (p_priority v) -> bback (bleaf_prio LA) v) /\
  (forall S (La : bleaf (addT S)) Lm Lb Lr Lz o, op_bback La Lm Lb Lr Lz o -> bback (bleaf_op La Lm Lb Lr Lz) o).
Proof. exact C72_round_trip_proof. Qed.
Print Assumptions C72_round_trip.
Example C72_round_trip_case :
  bput bfrac (Quad 3 (-128) 127 (Frac 5 (-7))) = [3; 128; 127; 5; 249] /\
  btake bfrac [3; 128; 127; 5; 249; 1; 2] = ok (Quad 3 (-128) 127 (Frac 5 (-7)), [1; 2]) /\
  forallb (fun k => match btake bfrac (firstn k [3; 128; 127; 5; 249]) with Done None => true | _ => false end) (seq 0 5) = true /\
  bput (bleaf_once (bleaf_str (fun _ => true))) (Found "ab"%string) = [1; 2; 97; 98].
Proof. vm_compute. auto. Qed.

(** Different values have different bytes, none beginning with another's. *)
Theorem C72_no_prefix :
  forall A (L : bleaf A) x y s, bback L x -> bback L y -> bput L y = bput L x ++ s -> x = y /\ s = [].
Proof. exact C72_no_prefix_proof. Qed.
Print Assumptions C72_no_prefix.
Example C72_no_prefix_case : bput (bleaf_int U32) 1 = [1] /\ bput (bleaf_int U32) 128 = [128; 1] /\ bput (bleaf_int U32) 129 = [129; 1].
Proof. vm_compute. auto. Qed.

(** No bytes make reading panic. *)
Theorem C72_returns :
  (forall t, tame (bleaf_int t)) /\ tame bleaf_f32 /\ tame bleaf_f64 /\ tame bleaf_bool /\ (forall utf8, tame (bleaf_str utf8)) /\
  (forall I, tame I -> tame (bleaf_ratio I)) /\
  (forall A M (LA : bleaf A) (LM : bleaf M), tame LA -> tame LM -> tame (bleaf_quad LA LM) /\ tame (bleaf_percent LA LM)) /\
  (forall F (LF : bleaf (fcar F)), tame LF -> tame (bleaf_mult LF)) /\
  (forall G (LG : bleaf (gcar G)), tame LG -> tame (bleaf_flags LG)) /\
  (forall A (LA : bleaf A), tame LA -> tame (bleaf_once LA) /\ tame (bleaf_prio LA)) /\
  tame bleaf_none /\
  (forall S (La : bleaf (addT S)) Lm Lb Lr Lz, tame La -> tame Lm -> tame Lb -> tame Lr -> tame Lz -> tame (bleaf_op La Lm Lb Lr Lz)).
Proof. exact C72_returns_proof. Qed.
Print Assumptions C72_returns.
Example C72_returns_case :
  btake bfrac [3; 128; 127; 5; 0] = err /\ btake (bleaf_int U32) [255; 255; 255; 255; 255; 255] = err /\ btake bleaf_bool [2] = err.
Proof. vm_compute. auto. Qed.

(** Whatever a stat has gone through, with and without overflow checks: if that did not panic, it
    is read back from its bytes. *)
Theorem C72_built_int : forall oc T (h : history (statInt oc T)) v,
  operands (op_of (S:=statInt oc T) (small (i_ty T)) (small (i_ty T)) (small (i_ty T)) (small (i_ty T))) h -> value_of h = Done v ->
  bback (bleaf_quad (bleaf_int (i_ty T)) (bleaf_int (i_ty T))) v.
Proof. exact C72_built_int_proof. Qed.
Print Assumptions C72_built_int.
Example C72_built_int_case :
  let h := Applied (Joined (@FromBase (statInt false (prim I8)) 100) (@FromBase (statInt false (prim I8)) 100)) (@OMul (statInt false (prim I8)) 3) in
  operands (op_of (S:=statInt false (prim I8)) (small I8) (small I8) (small I8) (small I8)) h /\ value_of h = Done (Quad (-56) (-128) 127 3) /\
  bput (bleaf_quad (bleaf_int I8) (bleaf_int I8)) (Quad (-56) (-128) 127 3) = [200; 128; 127; 3].
Proof. vm_compute. auto 10. Qed.

Theorem C72_built_fraction : forall oc T R (h : history (statIntFraction oc T R)) v,
  operands (op_of (S:=statIntFraction oc T R) (small (i_ty T)) (small_ratio (i_ty T)) (small (i_ty T)) (small (i_ty T))) h -> value_of h = Done v ->
  bback (bleaf_quad (bleaf_int (i_ty T)) (bleaf_ratio (bleaf_int (i_ty T)))) v.
Proof. exact C72_built_fraction_proof. Qed.
Print Assumptions C72_built_fraction.
Example C72_built_fraction_case :
  let h := Applied (@FromBase (statIntFraction true (prim I8) Round) 69) (@OMul (statIntFraction true (prim I8) Round) (Frac (-43) 47)) in
  operands (op_of (S:=statIntFraction true (prim I8) Round) (small I8) (small_ratio I8) (small I8) (small I8)) h /\
  value_of h = Done (Quad 69 (-128) 127 (Frac (-43) 47)) /\ bput bfrac (Quad 69 (-128) 127 (Frac (-43) 47)) = [69; 128; 127; 213; 47].
Proof. vm_compute. repeat split; discriminate. Qed.

Theorem C72_built_percent :
  (forall oc T R scale (h : history (statPctAdd oc T R scale)) v,
    operands (op_of (S:=statPctAdd oc T R scale) (small (i_ty T)) (small (i_ty T)) (small (i_ty T)) (small (i_ty T))) h -> value_of h = Done v ->
    bback (bleaf_percent (bleaf_int (i_ty T)) (bleaf_int (i_ty T))) v) /\
  (forall oc T R scale (h : history (statPct oc T R scale)) v,
    operands (op_of (S:=statPct oc T R scale) (small (i_ty T)) (small (i_ty T)) (small (i_ty T)) (small (i_ty T))) h -> value_of h = Done v ->
    bback (bleaf_percent (bleaf_int (i_ty T)) (bleaf_ratio (bleaf_int (i_ty T)))) v).
Proof. exact C72_built_percent_proof. Qed.
Print Assumptions C72_built_percent.
Example C72_built_percent_case :
  let h := Applied (@FromBase (statPct true (prim I32) Round 100) 420) (@OMul (statPct true (prim I32) Round 100) 32) in
  operands (op_of (S:=statPct true (prim I32) Round 100) (small I32) (small I32) (small I32) (small I32)) h /\
  value_of h = Done (Quad 420 (-2147483648) 2147483647 (Frac 8 25)) /\
  bput (bleaf_percent (bleaf_int I32) (bleaf_ratio (bleaf_int I32))) (Quad 420 (-2147483648) 2147483647 (Frac 8 25))
  = [200; 6; 16; 50; 255; 255; 255; 255; 15; 254; 255; 255; 255; 15].
Proof. vm_compute. auto 10. Qed.

Theorem C72_built_float_mul : forall prec emax (Hp : Prec_gt_0 prec) (He : Prec_lt_emax prec emax) oc t R (LF : bleaf (binary_float prec emax)),
  (forall x, bback LF x) -> forall (h : history (statIntFloatMul prec emax Hp He oc t R)) v,
  operands (op_of (S:=statIntFloatMul prec emax Hp He oc t R) (small t) (fun _ => True) (small t) (small t)) h -> value_of h = Done v ->
  bback (bleaf_quad (bleaf_int t) LF) v.
Proof. exact C72_built_float_mul_proof. Qed.
Print Assumptions C72_built_float_mul.
Example C72_built_float_mul_case :
  let S := statIntFloatMul 24 128 prec24 emax128 true I32 Round in
  let h := Applied (@FromBase S 420) (@OMax S 7) in
  operands (op_of (S:=S) (small I32) (fun _ => True) (small I32) (small I32)) h /\ exists v, value_of h = Done v /\ vmax v = 7 /\ bback bleaf_f32 (mult v).
Proof. split; [repeat split|eexists; split; [reflexivity|split; [reflexivity|apply bback_f32]]]. Qed.

Theorem C72_built_flags : forall t (h : history (statFlags zflags)) v,
  operands (flag_op t) h -> value_of h = Done v -> bback (bleaf_flags (G:=zflags) (bleaf_int t)) v.
Proof. exact C72_built_flags_proof. Qed.
Print Assumptions C72_built_flags.
Example C72_built_flags_case :
  let h := Applied (@FromBase (statFlags zflags) 32) (@ONot (statFlags zflags) (-128)) in
  operands (flag_op I8) h /\ value_of h = Done (@FlagsV zflags (-128) 32) /\ bput (bleaf_flags (G:=zflags) (bleaf_int I8)) (@FlagsV zflags (-128) 32) = [128; 32].
Proof. vm_compute. auto. Qed.

Theorem C72_built_once : forall A (LA : bleaf A) (h : history (statOnce A)) v,
  operands (once_bop LA) h -> value_of h = Done v -> bback (bleaf_once LA) v.
Proof. exact C72_built_once_proof. Qed.
Print Assumptions C72_built_once.
Example C72_built_once_case :
  let h := Applied (@FromDefault (statOnce Z)) (@OOr (statOnce Z) 5) in
  operands (once_bop (bleaf_int I8)) h /\ value_of h = Done (Found 5).
Proof. split; [split; [exact I|apply bback_int; reflexivity]|reflexivity]. Qed.

Theorem C72_built_prioritized : forall A (LA : bleaf A) dflt last (h : history (prioritized A dflt last)) v,
  bback LA dflt -> operands (prio_bop LA dflt last) h -> value_of h = Done v -> bback (bleaf_prio LA) v.
Proof. exact C72_built_prioritized_proof. Qed.
Print Assumptions C72_built_prioritized.
Example C72_built_prioritized_case :
  let h := Joined (@FromBase (prioritized Z 0 true) (Prio 7 (-3))) (@FromBase (prioritized Z 0 true) (Prio 8 2)) in
  operands (prio_bop (bleaf_int I8) 0 true) h /\ value_of h = Done (Prio 8 (-3)) /\ bput (bleaf_prio (bleaf_int I8)) (Prio 8 (-3)) = [8; 5].
Proof. split; [|split; reflexivity]. split; (split; [apply bback_int; reflexivity|reflexivity]). Qed.

(** A map filled with such values by any calls is read back from its bytes; beginnings of them are
    refused. *)
Theorem C72_maps :
  forall (P : Prog) (Q : QFlag) (N : StatNames P) (bs : list comparison -> bsres) serial utf8 (L : forall t, bleaf (val (VT P t))) (LQ : bleaf (qcar Q)),
  bs_contract bs -> distinct_vtables P -> lawful_ord (q_cmp Q) ->
  forall (r : registry P) (l : list (mop P Q)) (m : map_t P Q), Forall sound_op l -> Forall (retains (fun t => bback (L t))) l ->
  mops_run bs [] l = Done m -> Z.of_nat (List.length m) < 2 ^ 64 ->
  let C := bleaf_codec P Q serial utf8 L LQ in
  (forall e, In e m -> serial (si_ty (e_stat e)) = true /\ bname_back N C r (e_stat e) /\ bback LQ (any_of (e_qual e)) /\ bback LQ (all_of (e_qual e))) ->
  exists d, put_map N C m = ok d /\ spells (take_map C (WReg r)) d m.
Proof. exact C72_maps_proof. Qed.
Print Assumptions C72_maps.
Example C72_maps_case :
  Forall (@retains demo intQ (fun t => bback (demo_bleaf t))) [put_atk none 4; put_alive none true; put_hp fire 3] /\
  exists d, derived_bytes [put_atk none 4; put_alive none true; put_hp fire 3] = Some d /\ get_hp (derived_map (d ++ [9])) fire = Done (Some (num 3)).
Proof.
  split.
  - repeat (constructor; [first [apply bback_quad; apply bback_int; reflexivity|apply bback_bool]|]). constructor.
  - eexists. split; [vm_compute; reflexivity|]. vm_compute. reflexivity.
Qed.

(** A boolean is read from one byte, which is 0 or 1; a string is its length, a varint, and that many
    bytes, which pass the check of UTF-8. Nothing else is accepted. *)
Theorem C72_bool_str :
  (forall bs b rest, btake bleaf_exists bs = ok (b, rest) <-> bs = (if b then 1 else 0) :: rest) /\
  (forall utf8 bs s rest, Forall is_byte bs -> (btake (bleaf_str utf8) bs = ok (s, rest) <->
     exists l, bs = l ++ text s ++ rest /\ varint 10 1 l (Z.of_nat (String.length s)) /\ utf8 s = true)).
Proof. exact C72_bool_str_proof. Qed.
Print Assumptions C72_bool_str.
Example C72_bool_str_case :
  btake bleaf_exists [1; 7] = ok (true, [7]) /\ btake bleaf_exists [2; 7] <> ok (true, [7]) /\
  btake (bleaf_str (fun _ => true)) [2; 72; 112; 9] = ok ("Hp"%string, [9]) /\
  btake (bleaf_str (fun _ => true)) [130; 0; 72; 112; 9] = ok ("Hp"%string, [9]).
Proof. repeat split. discriminate. Qed.

(** A saved cache takes no bytes and loads empty, as does the marker [StatEntity]. *)
Theorem C72_nothing_written :
  forall (P : Prog) (Q : QFlag),
  (forall (c : pcache P Q), bput bleaf_cache c = []) /\
  (forall bs (c : pcache P Q) rest, btake bleaf_cache bs = ok (c, rest) <-> c = PCache [] false /\ rest = bs) /\
  bput bleaf_entity tt = [] /\ (forall bs rest, btake bleaf_entity bs = ok (tt, rest) <-> rest = bs).
Proof. exact C72_nothing_written_proof. Qed.
Print Assumptions C72_nothing_written.
Example C72_nothing_written_case : bput (@bleaf_cache demo intQ) (PCache [] true) = [] /\ btake (@bleaf_cache demo intQ) [5] = ok (PCache [] false, [5]).
Proof. split; reflexivity. Qed.

(** False: bytes of equal fractions are equal stats, as for documents (C62_fraction_refuted). *)
Theorem C72_fraction_refuted :
  exists bs bs' v w,
  btake bfrac bs = ok (v, []) /\ btake bfrac bs' = ok (w, []) /\ addend v = addend w /\ vmin v = vmin w /\ vmax v = vmax w /\
  numer (mult v) * denom (mult w) = numer (mult w) * denom (mult v) /\
  frac_eval true w = Done 3 /\ frac_eval false w = Done 3 /\
  frac_eval true v = Panics POverflow /\ frac_eval false v = Done 0.
Proof. exact C72_fraction_refuted_proof. Qed.
Print Assumptions C72_fraction_refuted.

(** False: bytes tell which value type wrote them. [StatIntPercentAdditive] has the fields of
    [StatInt] in another order, so a stat whose type is changed from one to the other loads with its
    bounds and multiplier exchanged, and no error. *)
Theorem C72_typeless_refuted :
  exists v w : quad Z Z, bback (bleaf_quad (bleaf_int I8) (bleaf_int I8)) v /\ bback (bleaf_percent (bleaf_int I8) (bleaf_int I8)) w /\
  bput (bleaf_quad (bleaf_int I8) (bleaf_int I8)) v = bput (bleaf_percent (bleaf_int I8) (bleaf_int I8)) w /\ v <> w.
Proof. exact C72_typeless_refuted_proof. Qed.
Print Assumptions C72_typeless_refuted.
