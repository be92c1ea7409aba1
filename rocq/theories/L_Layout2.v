(** The layouts of all provided types. *)
From Coq Require Import ZArith List Bool Lia.
From Verif Require Import M_Outcome M_Ints M_Stat M_Layout S_Layout L_LayoutProofs.
Import ListNotations.
Local Open Scope Z_scope.

Lemma C26_layouts_proof :
  forall i p f : layout, sane i -> sane p -> sane f ->
  struct_of 8 [i; i; i; i] (lay_StatInt i) /\
  struct_of 8 [i; i; i; Lay (2 * l_size p) (l_align p); Lay 0 1] (lay_StatIntFraction i p) /\
  struct_of 8 [i; i; i; f; Lay 0 1] (lay_StatIntFloatMul i f) /\
  struct_of 8 [i; i; i; i; Lay 0 1] (lay_StatIntPercentAdditive i) /\
  struct_of 8 [i; Lay (2 * l_size p) (l_align p); i; i; Lay 0 1] (lay_StatIntPercent i p) /\
  struct_of 8 [f; f; f; f] (lay_StatFloat f) /\
  struct_of 8 [f; f; f] (lay_StatMult f) /\
  struct_of 8 [i; i] (lay_StatFlags i) /\
  struct_of 8 [Lay 1 1] lay_StatExists /\
  struct_of 8 [Lay 4 4; i] (lay_StatOnce i) /\
  struct_of 1 [i; Lay 4 4] (lay_Prioritized i).
Proof.
  intros i p f Hi Hp Hf. assert (Hr : sane (Lay (2 * l_size p) (l_align p))) by (unfold sane in *; cbn [l_size l_align]; lia).
  assert (H0 : sane (Lay 0 1)) by (unfold sane; cbn; lia). assert (H4 : sane (Lay 4 4)) by (unfold sane; cbn; lia). assert (H1 : sane (Lay 1 1)) by (unfold sane; cbn; lia).
  unfold lay_StatInt, lay_StatIntFraction, lay_StatIntFloatMul, lay_StatIntPercentAdditive, lay_StatIntPercent, lay_StatFloat, lay_StatMult, lay_StatFlags, lay_StatExists, lay_StatOnce, lay_Prioritized, c_enum.
  repeat match goal with |- _ /\ _ => split end; (apply C26_struct_proof; [lia|repeat (apply Forall_cons; [assumption|]); apply Forall_nil]).
Qed.

Lemma C26_sizes_proof :
  forall a128 t, a128 = 8 \/ a128 = 16 ->
  let i := lay_int a128 t in
  let ls := [lay_StatInt i; lay_StatIntPercentAdditive i; lay_StatIntPercent i i; lay_StatIntFraction i i; lay_StatIntFloatMul i lay_f32; lay_StatIntFloatMul i lay_f64; lay_StatFlags i; lay_Prioritized i] in
  (bits t = 8 -> i = Lay 1 1 /\ map l_size ls = [8; 8; 8; 8; 8; 16; 8; 8]) /\
  (bits t = 16 -> i = Lay 2 2 /\ map l_size ls = [8; 8; 16; 16; 16; 16; 8; 8]) /\
  (bits t = 32 -> i = Lay 4 4 /\ map l_size ls = [16; 16; 24; 24; 16; 24; 8; 8]) /\
  (bits t = 64 -> i = Lay 8 8 /\ map l_size ls = [32; 32; 40; 40; 32; 32; 16; 16]) /\
  (bits t = 128 -> i = Lay 16 a128 /\ map l_size ls = [64; 64; 80; 80; if a128 =? 8 then 56 else 64; if a128 =? 8 then 56 else 64; 32; if a128 =? 8 then 24 else 32]) /\
  [lay_bool; lay_f32; lay_f64; lay_StatExists; lay_StatFloat lay_f32; lay_StatFloat lay_f64; lay_StatMult lay_f32; lay_StatMult lay_f64] =
    [Lay 1 1; Lay 4 4; Lay 8 8; Lay 8 8; Lay 16 8; Lay 32 8; Lay 16 8; Lay 24 8].
Proof.
  intros a128 t [-> | ->]; cbv zeta; (split; [|split; [|split; [|split; [|split; [|reflexivity]]]]]); destruct t; cbn; intros H; try discriminate; split; reflexivity.
Qed.
