(** C60 for all histories of registered defaults. *)
From Coq Require Import ZArith String List Bool.
From Verif Require Import M_Outcome M_Value M_Types M_Stat M_StatMap M_HashMap M_Defaults M_Registry M_Debug
  S_StatMap S_Defaults S_Defaults2 S_Demo S_DemoDefaults S_Debug L_Debug2.
Import ListNotations.
Local Open Scope Z_scope.

(** Printing the table of defaults is undefined exactly when it holds a stat that was only patched;
    otherwise it prints as many items as there are defaults. *)
Theorem C60_defaults_iff :
  forall (P : Prog) (o_size o_align : vty P -> Z) (N : StatNames P) (show : forall t : vty P, val (VT P t) -> outcome string)
    (l : list (dcall P)) (d : defaults P) (lost : list (dbuf P)),
  distinct_vtables P -> Forall (fun c => fits (call_stat c)) l -> printable N show -> d_run o_size o_align [] l = Done (d, lost) ->
  (defaults_debug N show d = UB <-> exists s, orphaned l s) /\
  ((forall s, ~ orphaned l s) -> exists r, defaults_debug N show d = Done r /\ length r = length d).
Proof. exact C60_defaults_iff_proof. Qed.
Print Assumptions C60_defaults_iff.
Example C60_defaults_iff_case :
  Forall (fun c => fits (call_stat c)) [dmin_hp (-5); dput_atk 3; dput_hp 7; dmin_hp 1] /\
  see_defaults [dmin_hp (-5); dput_atk 3; dput_hp 7; dmin_hp 1] = Done [("Hp", "7"); ("Atk", "3")]%string /\
  see_defaults [dput_atk 3; dmin_hp (-5)] = UB.
Proof. split; [repeat constructor|split; vm_compute; reflexivity]. Qed.
