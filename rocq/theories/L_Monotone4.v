(** Proofs: where more is worth less. *)
From Coq Require Import ZArith QArith List Bool Lia.
From Verif Require Import M_Outcome M_Ints M_Ratio M_Float M_Value M_Types S_Types S_Totals S_Monotone.
Import ListNotations.
Local Open Scope Z_scope.

Lemma C75_wrapping_refuted_proof :
  exists h k, improved (int_merits false false (prim I8)) h k /\ worth h = Done 127 /\ worth k = Done (-128).
Proof.
  exists (@FromBase (statInt false (prim I8)) 127), (Applied (@FromBase (statInt false (prim I8)) 127) (@OAdd (statInt false (prim I8)) 1)).
  split; [|split; reflexivity]. apply im_gain; [apply im_base; unfold better_base, int_merits, z_ok; cbn; lia|cbn; lia].
Qed.
Lemma C75_raise_refuted_proof :
  exists h k, improved (int_merits true true (prim I32)) h k /\ worth h = Done (-3) /\ worth k = Done (-6).
Proof.
  exists (@FromBase (statInt true (prim I32)) (-3)), (Applied (@FromBase (statInt true (prim I32)) (-3)) (@OMul (statInt true (prim I32)) 2)).
  split; [|split; reflexivity]. apply im_gain; [apply im_base; unfold better_base, int_merits, z_ok; cbn; lia|cbn; lia].
Qed.
Lemma C75_percent_default_refuted_proof :
  exists h : history (statPct true (prim I32) Round 100), worth h = Done (-10) /\ worth (Joined h FromDefault) = Done (-18).
Proof. exists (@FromBase (statPct true (prim I32) Round 100) (-10)). split; reflexivity. Qed.
