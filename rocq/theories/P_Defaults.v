From Coq Require Import ZArith List Bool Permutation.
From Verif Require Import M_Outcome M_Value M_Types M_Stat M_StatMap M_HashMap M_Pair M_Defaults S_StatMap S_Defaults S_Demo S_DemoDefaults L_StatMap3 L_Demo L_HashMap L_Defaults L_DefaultsProofs.
Import ListNotations.
Local Open Scope Z_scope.

(** * C23: the table of default values *)

(** A history in which every patched stat was inserted before is the map it should be. *)
Theorem C23_defaults_map : forall (P : Prog) (o_size o_align : vty P -> Z) (l : list (dcall P)) (d : defaults P) (lost : list (dbuf P)),
  distinct_vtables P -> inserted_first l ->
  d_run o_size o_align [] l = Done (d, lost) ->
  exists sp, dspec_run no_defaults l sp /\
  forall s, fits s ->
    d_get d s = Done (or_default s (sp s)) /\
    exists lost', d_get_dyn d s = Done (Buf (vt_value P (si_ty s)) (or_default s (sp s)), lost').
Proof. exact C23_defaults_map_proof. Qed.
Print Assumptions C23_defaults_map.
Example C23_defaults_map_case :
  let d := demo_defaults [dput_hp 7; dput_atk 3; dmin_hp (-5); dmax_hp 50; dput_atk 9] in
  dget_hp d = Done (Quad 7 (-5) 50 1) /\ dget_atk d = Done (num 9) /\ dget_alive d = Done false /\ ddyn_hp d = Done (Quad 7 (-5) 50 1, 1%nat).
Proof. vm_compute. repeat split. Qed.

(** What the map it should be is, call by call: the last insertion, then the patches since. *)
Theorem C23_untouched_default : forall (P : Prog) (l : list (dcall P)) (sp : dmap P) (s : inst P),
  dspec_run no_defaults l sp -> Forall (fun c => call_stat c <> s) l -> sp s = None.
Proof. exact C23_untouched_default_proof. Qed.
Print Assumptions C23_untouched_default.
Example C23_untouched_default_case : dget_alive (demo_defaults [dput_hp 7; dput_atk 3]) = Done false.
Proof. vm_compute. reflexivity. Qed.

Theorem C23_no_ub : forall (P : Prog) (o_size o_align : vty P -> Z) (l : list (dcall P)),
  distinct_vtables P -> inserted_first l -> Forall sound_call l ->
  d_run o_size o_align [] l <> UB.
Proof. exact C23_no_ub_proof. Qed.
Print Assumptions C23_no_ub.
Example C23_no_ub_case : defaults_ok [dput_hp 7; dmin_hp (-5); dput_hp 8] = Done 1%nat.
Proof. vm_compute. reflexivity. Qed.

Theorem C23_total : forall (P : Prog) (o_size o_align : vty P -> Z) (l : list (dcall P)),
  distinct_vtables P -> inserted_first l -> Forall total_call l ->
  exists d lost, d_run o_size o_align [] l = Done (d, lost) /\ exists dropped, d_drop d = Done dropped.
Proof. exact C23_total_proof. Qed.
Print Assumptions C23_total.
Example C23_total_case : ddrop_count (demo_defaults [dput_hp 7; dmin_hp (-5); dput_atk 3]) = Done 2%nat.
Proof. vm_compute. reflexivity. Qed.

(** Patching a stat that was never inserted: the operation itself is stored in the table as if
    it were a value, and every later access to that stat is undefined behaviour. *)
Theorem C23_patch_unregistered : forall (P : Prog) (o_size o_align : vty P -> Z) (d : defaults P) (s : inst P) (op : stat_op (VT P (vt_value P (si_ty s)))) v',
  distinct_vtables P -> hget inst_eqb d s = None -> fits s ->
  write_to op (sv_default (VT P (vt_value P (si_ty s)))) = Done v' ->
  validate (o_size (vt_value P (si_ty s))) (o_align (vt_value P (si_ty s))) = Done tt ->
  exists d', d_patch o_size o_align d s op = Done d' /\
    d_get d' s = UB /\ d_get_dyn d' s = UB /\ forall op', d_patch o_size o_align d' s op' = UB.
Proof. exact C23_patch_unregistered_proof. Qed.
Print Assumptions C23_patch_unregistered.
Example C23_patch_unregistered_case :
  let d := demo_defaults [dput_atk 3; dmin_hp (-5)] in
  dget_hp d = UB /\ ddyn_hp d = UB /\ ddrop_count d = UB /\ defaults_ok [dput_atk 3; dmin_hp (-5); dmax_hp 9] = UB.
Proof. vm_compute. repeat split. Qed.

(** So the table is not a map of the registered values in general: [register_stat_min] alone. *)
Theorem C23_defaults_map_refuted :
  exists (l : list (dcall demo)), Forall total_call l /\ Forall (fun c => fits (call_stat c)) l /\
    defaults_ok l = Done 0%nat /\ dget_hp (demo_defaults l) = UB /\ ddrop_count (demo_defaults l) = UB.
Proof. exact C23_defaults_map_refuted_proof. Qed.
Print Assumptions C23_defaults_map_refuted.
Example C23_defaults_map_refuted_case : defaults_ok [dput_hp 1; dmin_hp (-5)] = Done 0%nat /\ dget_hp (demo_defaults [dput_hp 1; dmin_hp (-5)]) = Done (Quad 1 (-5) 1000 1).
Proof. vm_compute. repeat split. Qed.

(** * C24: values owned by the table of defaults, and by pairs *)

(** With insertions only: every value given to the table is in it or was lost, exactly once. *)
Theorem C24_defaults_conserved : forall (P : Prog) (o_size o_align : vty P -> Z) (l : list (dcall P)) (d : defaults P) (lost : list (dbuf P)),
  Forall is_insert l -> d_run o_size o_align [] l = Done (d, lost) ->
  Permutation (inserted l) (map snd d ++ lost).
Proof. exact C24_defaults_conserved_proof. Qed.
Print Assumptions C24_defaults_conserved.
Example C24_defaults_conserved_case : defaults_ok [dput_hp 1; dput_atk 2; dput_hp 3] = Done 1%nat /\ ddrop_count (demo_defaults [dput_hp 1; dput_atk 2; dput_hp 3]) = Done 2%nat.
Proof. vm_compute. repeat split. Qed.

(** Nothing is lost exactly when no stat is inserted after it already has an entry. *)
Theorem C24_defaults_lost_iff : forall (P : Prog) (o_size o_align : vty P -> Z) (l : list (dcall P)) (d : defaults P) (lost : list (dbuf P)),
  distinct_vtables P -> d_run o_size o_align [] l = Done (d, lost) ->
  (lost = [] <-> forall l1 s v l2, l = l1 ++ DInsert s v :: l2 -> Forall (fun c => call_stat c <> s) l1).
Proof. exact C24_defaults_lost_iff_proof. Qed.
Print Assumptions C24_defaults_lost_iff.
Example C24_defaults_lost_iff_case : defaults_ok [dput_hp 1; dput_atk 2] = Done 0%nat /\ defaults_ok [dput_hp 1; dput_hp 2; dput_hp 3] = Done 2%nat.
Proof. vm_compute. repeat split. Qed.

(** Dropping the table drops each stored value once. *)
Theorem C24_defaults_drop_once : forall (P : Prog) (o_size o_align : vty P -> Z) (l : list (dcall P)) (d : defaults P) (lost : list (dbuf P)),
  distinct_vtables P -> inserted_first l -> Forall total_call l ->
  d_run o_size o_align [] l = Done (d, lost) ->
  exists dropped, d_drop d = Done dropped /\ map DVal dropped = map snd d.
Proof. exact C24_defaults_drop_once_proof. Qed.
Print Assumptions C24_defaults_drop_once.
Example C24_defaults_drop_once_case : ddrop_count (demo_defaults [dput_hp 7; dput_atk 3; dmin_hp 1; dput_atk 4]) = Done 2%nat.
Proof. vm_compute. reflexivity. Qed.

(** Reading a registered default through [get_dyn] loses one freshly built default value. *)
Theorem C24_get_dyn_lost_iff : forall (P : Prog) (d : defaults P) (s : inst P) b lost,
  d_get_dyn d s = Done (b, lost) -> (lost = [] <-> hget inst_eqb d s = None).
Proof. exact C24_get_dyn_lost_iff_proof. Qed.
Print Assumptions C24_get_dyn_lost_iff.
Example C24_get_dyn_lost_iff_case : ddyn_hp (demo_defaults [dput_hp 7]) = Done (num 7, 1%nat) /\ ddyn_hp (demo_defaults []) = Done (Quad 0 (-2147483648) 2147483647 1, 0%nat).
Proof. vm_compute. repeat split. Qed.

Theorem C24_defaults_refuted :
  exists l, Forall is_insert l /\ defaults_ok l = Done 1%nat /\
    exists l', inserted_first l' /\ defaults_ok l' = Done 0%nat /\ ddyn_hp (demo_defaults l') = Done (num 7, 1%nat).
Proof. exact C24_defaults_refuted_proof. Qed.
Print Assumptions C24_defaults_refuted.
Example C24_defaults_refuted_case : defaults_ok [dput_hp 1; dput_hp 2] = Done 1%nat.
Proof. vm_compute. reflexivity. Qed.

(** [StatValuePair::into_result] at the wrong stat type returns [None] and loses the value. *)
Theorem C24_into_result_lost_iff : forall (P : Prog) (D : StatTypes P) (p : pair P) (s : sty P) r,
  pair_into_result D p s = Done r -> (pair_into_leaks p s = true <-> r = None).
Proof. exact C24_into_result_lost_iff_proof. Qed.
Print Assumptions C24_into_result_lost_iff.
Example C24_into_result_lost_iff_case :
  pair_into_leaks (hp_pair 3) Alive = true /\ pair_into_leaks (hp_pair 3) Hp = false.
Proof. vm_compute. repeat split. Qed.
