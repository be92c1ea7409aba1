(** C04, C41: the flag types in use have lawful orders; the order of keys. *)
From Coq Require Import ZArith Bool List Lia.
From Verif Require Import M_Outcome M_Value M_Qualifier M_Stat M_StatMap S_StatMap S_Querier S_Demo L_Demo L_FlagTypes.
Import ListNotations.
Local Open Scope Z_scope.

(** Integers meet what is asked of flags throughout, and are ordered as numbers. *)
Theorem C04_int_flags :
  lawful_ord (q_cmp intQ) /\ flags_eq (Q := intQ) /\
  forall a b : Z, q_cmp intQ a b = Lt <-> a < b.
Proof. exact C04_int_flags_proof. Qed.
Print Assumptions C04_int_flags.
Example C04_int_flags_case : q_cmp intQ (-1) 3 = Lt /\ q_eqb intQ 5 5 = true /\ q_eqb intQ 5 4 = false.
Proof. repeat split. Qed.

(** So does [bool], with false first. *)
Theorem C04_bool_flags :
  lawful_ord (q_cmp boolQ) /\ flags_eq (Q := boolQ) /\
  forall a b : bool, q_cmp boolQ a b = Lt <-> a = false /\ b = true.
Proof. exact C04_bool_flags_proof. Qed.
Print Assumptions C04_bool_flags.
Example C04_bool_flags_case : q_cmp boolQ false true = Lt /\ q_cmp boolQ true false = Gt /\ q_cmp boolQ true true = Eq.
Proof. repeat split. Qed.

(** Stats are ordered by the address of their table, then by index. *)
Theorem C41_lexicographic :
  forall (P : Prog) (a b : inst P),
  inst_cmp a b = Lt <->
  vt_addr P (si_ty a) < vt_addr P (si_ty b) \/
  vt_addr P (si_ty a) = vt_addr P (si_ty b) /\ si_index a < si_index b.
Proof. exact C41_lexicographic_proof. Qed.
Print Assumptions C41_lexicographic.
Example C41_lexicographic_case : inst_cmp (@Inst demo Hp 0) (@Inst demo Hp 1) = Lt /\ inst_cmp hp atk = Gt.
Proof. split; reflexivity. Qed.

(** Entries of a map are ordered by stat, then by [any_of], then by [all_of]. *)
Theorem C04_key_order :
  forall (P : Prog) (Q : QFlag), distinct_vtables P -> lawful_ord (q_cmp Q) ->
  forall (s s' : inst P) (q q' : qualifier Q),
  key_cmp s q s' q' = Lt <->
  inst_cmp s s' = Lt \/
  s = s' /\ (q_cmp Q (any_of q) (any_of q') = Lt \/
             any_of q = any_of q' /\ q_cmp Q (all_of q) (all_of q') = Lt).
Proof. exact C04_key_order_proof. Qed.
Print Assumptions C04_key_order.
Example C04_key_order_case :
  let k a b := key_cmp hp (@Qual intQ a b) hp (@Qual intQ 2 2) in
  k 1 9 = Lt /\ k 2 1 = Lt /\ k 2 2 = Eq /\ k 3 0 = Gt /\ key_cmp atk (@Qual intQ 9 9) hp (@Qual intQ 0 0) = Lt.
Proof. repeat split. Qed.

