(** Data for the examples of monotonicity of queries. *)
From Coq Require Import ZArith List Bool.
From Flocq Require Import BinarySingleNaN.
From Verif Require Import S_Types.
From Verif Require Import M_Outcome M_Ints M_Ratio M_Float M_Value M_Types M_Qualifier M_Search M_Stat M_StatMap M_HashMap M_Pair M_Defaults M_Querier
  S_Totals S_FloatTotals S_EndToEnd S_Demo S_DemoQuery S_DemoGame S_DemoGame2 S_Monotone S_MonoQuery S_MonoQuery2.
Import ListNotations.
Local Open Scope Z_scope.

Definition solo_query (V : StatValue) (l : list (list (edit (solo V) intQ))) : outcome (option (val V)) :=
  fst (run (client (g_querier (solo_game V l)) 1 (p_query 0%nat (@Aggregate intQ 0) (the_stat V))) []).
Definition solo_more (V : StatValue) (O : merits V) (l l' : list (list (edit (solo V) intQ))) : Prop :=
  granted_more bs_new (fun _ => 24) (fun _ => 8) (solo_game V l) (solo_game V l') 0%nat 0%nat (@Aggregate intQ 0) (the_stat V) eq_refl O.

(** 6 doubled, the child takes 1; then 6 tripled. *)
Definition si_mean : list (list (edit (solo SI) intQ)) := [[grant SI 6; alter SI (@OMul SI 2)]; [alter SI (@OAdd SI (-1))]].
Definition si_kind : list (list (edit (solo SI) intQ)) := [[grant SI 6; alter SI (@OMul SI 3)]; []].
(** 7 and 30 percent, the child takes 20 percent; then the child gives 1. *)
Definition PD : StatValue := statPctAdd true (prim I32) Ceil 100.
Definition pd_poor : list (list (edit (solo PD) intQ)) := [[grant PD 7; alter PD (@OMul PD 30)]; [alter PD (@OMul PD (-20))]].
Definition pd_rich : list (list (edit (solo PD) intQ)) := [[grant PD 7; alter PD (@OMul PD 30)]; [alter PD (@OAdd PD 1)]].
(** 7 times 2/3; then 7 times 3/4, and the child gives 2. *)
Definition QF : StatValue := statIntFraction true (prim I32) Round.
Definition qf_poor : list (list (edit (solo QF) intQ)) := [[grant QF 7; alter QF (@OMul QF (Frac 2 3))]; []].
Definition qf_rich : list (list (edit (solo QF) intQ)) := [[grant QF 7; alter QF (@OMul QF (Frac 3 4))]; [alter QF (@OAdd QF 2)]].
(** 10 and 5, the child allows at most 22; then the child gives half as much again. *)
Definition fl_poor : list (list (edit (solo FL) intQ)) := [[grant FL (f32_int 10); alter FL (@OAdd FL (f32_int 5))]; [alter FL (@OMax FL (f32_int 22))]].
Definition fl_rich : list (list (edit (solo FL) intQ)) := [[grant FL (f32_int 10); alter FL (@OAdd FL (f32_int 5))]; [alter FL (@OMul FL (f32_half 3))]].
(** 10, the child takes half; then the child does not. *)
Definition fa_poor : list (list (edit (solo FA) intQ)) := [[grant FA (f32_int 10)]; [alter FA (@OMul FA (f32_half (-1)))]].
Definition fa_rich : list (list (edit (solo FA) intQ)) := [[grant FA (f32_int 10)]; [alter FA (@OMin FA (f32_int 3))]].
(** Half, then 7 times 3/2. *)
Definition sm_poor : list (list (edit (solo SM) intQ)) := [[alter SM (@OMul SM (f32_half 1))]; []].
Definition sm_rich : list (list (edit (solo SM) intQ)) := [[grant SM (f32_int 7); alter SM (@OMul SM (f32_half 3))]; []].
(** 10; then the child gives half as much again and 1. *)
Definition im_poor : list (list (edit (solo IM) intQ)) := [[grant IM 10]; []].
Definition im_rich : list (list (edit (solo IM) intQ)) := [[grant IM 10]; [alter IM (@OMul IM (f32_half 3)); alter IM (@OAdd IM 1)]].
Definition solo_flt (a b : outcome (option f32)) : bool := match a, b with Done (Some x), Done (Some y) => Bltb x y | _, _ => false end.
(** Whether a test of the value of a query succeeds. *)
Definition solo_test {V : StatValue} (t : val V -> bool) (o : outcome (option (val V))) : bool := match o with Done (Some v) => t v | _ => false end.
Definition fl_number (v : val FL) : bool := negb (is_nan (@Bmult 24 128 prec24 emax128 mode_NE (addend v : f32) (mult v))) && Bleb (B754_zero false : f32) (addend v).
Definition fa_number (v : val FA) : bool :=
  let factor : f32 := @Bplus 24 128 prec24 emax128 mode_NE (mult v : f32) (b_one 24 128 prec24 emax128) in
  negb (is_nan (@Bmult 24 128 prec24 emax128 mode_NE (addend v : f32) factor)) && Bleb (B754_zero false : f32) factor && Bleb (B754_zero false : f32) (addend v).
Definition sm_number (v : val SM) : bool := negb (is_nan (t_mult v : f32)).
Definition im_number (v : val IM) : bool := negb (is_nan (@Bmult 24 128 prec24 emax128 mode_NE (b_of_int 24 128 prec24 emax128 (addend v)) (mult v : f32))) && (0 <=? addend v).
