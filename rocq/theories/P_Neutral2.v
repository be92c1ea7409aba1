(** C12 for [bool] and [Prioritized]; C14: exactly when [Prioritized] does what its documentation says. *)
From Coq Require Import ZArith List Bool Lia.
From Verif Require Import M_Outcome M_Value M_Types S_Types L_Neutral3.
Import ListNotations.
Local Open Scope Z_scope.

(** [false] is neutral for [bool]; its operations do nothing, in place or split off. *)
Theorem C12_bool : default_neutral boolV (fun _ => True) /\ splittable boolV (fun _ => True) (fun _ => True).
Proof. exact C12_bool_proof. Qed.
Print Assumptions C12_bool.

(** The default of [Prioritized] has priority 0: joined to a value it changes it exactly if the value
    has a lower priority (or the same one, if the last occurrence wins). *)
Theorem C12_Prioritized_right : forall A d (last : bool) (v : prio A), let S := prioritized A d last in
  sv_join S v (sv_default S) = Done v <-> (if last then 0 < p_priority v else 0 <= p_priority v) \/ p_value v = d.
Proof. exact C12_Prioritized_right_proof. Qed.
Print Assumptions C12_Prioritized_right.
Example C12_Prioritized_right_case :
  sv_join (prioritized Z 0 false) (Prio 5 0) (Prio 0 0) = Done (Prio 5 0) /\
  sv_join (prioritized Z 0 true) (Prio 5 0) (Prio 0 0) = Done (Prio 0 0).
Proof. split; reflexivity. Qed.

(** A value joined to the default: the priority stays 0, and the value is taken exactly if its own
    priority is above 0 (or 0, if the last occurrence wins). *)
Theorem C12_Prioritized_left : forall A d (last : bool) (v : prio A), let S := prioritized A d last in
  (sv_join S (sv_default S) v = Done v <-> p_priority v = 0 /\ (last = true \/ p_value v = d)) /\
  ((let! w := sv_join S (sv_default S) v in sv_eval S w) = sv_eval S v <->
    (if last then 0 <= p_priority v else 0 < p_priority v) \/ p_value v = d).
Proof. exact C12_Prioritized_left_proof. Qed.
Print Assumptions C12_Prioritized_left.
Example C12_Prioritized_left_case :
  sv_join (prioritized Z 0 false) (Prio 0 0) (Prio 5 3) = Done (Prio 5 0) /\
  sv_join (prioritized Z 0 false) (Prio 0 0) (Prio 5 (-3)) = Done (Prio 0 0).
Proof. split; reflexivity. Qed.

(** Operations do nothing to a [Prioritized] in place; split off, they do what the default does. *)
Theorem C12_Prioritized_split : forall A d (last : bool) (v : prio A) (o : stat_op (prioritized A d last)),
  (forall b, o <> OBase b) ->
  write_to o v = Done v /\
  ((let! w := into_stat o in sv_join (prioritized A d last) v w) = write_to o v <->
   (if last then 0 < p_priority v else 0 <= p_priority v) \/ p_value v = d).
Proof. exact C12_Prioritized_split_proof. Qed.
Print Assumptions C12_Prioritized_split.
Example C12_Prioritized_split_case :
  let S := prioritized Z 0 false in
  (forall b, @OOr S (Prio 9 9) <> OBase b) /\
  write_to (@OOr S (Prio 9 9)) (Prio 5 (-1)) = Done (Prio 5 (-1)) /\
  (let! w := into_stat (@OOr S (Prio 9 9)) in sv_join S (Prio 5 (-1)) w) = Done (Prio 0 (-1)).
Proof. split; [discriminate|]. split; reflexivity. Qed.

(** So the default of [Prioritized] is neutral on neither side. *)
Theorem C12_Prioritized_refuted : forall last : bool, let S := prioritized Z 0 last in
  exists v : prio Z, sv_join S v (sv_default S) <> Done v /\
    (let! w := sv_join S (sv_default S) v in sv_eval S w) <> sv_eval S v.
Proof. exact C12_Prioritized_refuted_proof. Qed.
Print Assumptions C12_Prioritized_refuted.

(** [best] is the documented result: the first (or last) of highest priority among the initial value and
    the contributions. It is the result if no contribution after it beats the initial value. *)
Theorem C14_documented_when : forall A d (last : bool) (v : prio A) l l1 best l2,
  v :: l = l1 ++ best :: l2 ->
  (forall y, In y l1 -> if last then p_priority y <= p_priority best else p_priority y < p_priority best) ->
  (forall y, In y l2 -> if last then p_priority y < p_priority best else p_priority y <= p_priority best) ->
  (forall y, In y l2 -> (if last then p_priority v <=? p_priority y else p_priority v <? p_priority y) = false) ->
  let S := prioritized A d last in
  (let! w := ofold (sv_join S) v l in sv_eval S w) = Done (p_value best).
Proof. exact C14_documented_when_proof. Qed.
Print Assumptions C14_documented_when.
Example C14_documented_when_case :
  let S := prioritized Z 0 false in
  (let! w := ofold (sv_join S) (Prio 7 5) [Prio 1 6; Prio 2 9; Prio 3 5; Prio 4 1] in sv_eval S w) = Done 2.
Proof.
  apply (C14_documented_when Z 0 false (Prio 7 5) _ [Prio 7 5; Prio 1 6] (Prio 2 9) [Prio 3 5; Prio 4 1]); [reflexivity| | |];
    cbn; intuition (subst; cbn; lia || reflexivity).
Qed.

(** With pairwise different values it is the result only then. *)
Theorem C14_documented_iff : forall A d (last : bool) (v : prio A) l l1 best l2,
  NoDup (map p_value (v :: l)) ->
  v :: l = l1 ++ best :: l2 ->
  (forall y, In y l1 -> if last then p_priority y <= p_priority best else p_priority y < p_priority best) ->
  (forall y, In y l2 -> if last then p_priority y < p_priority best else p_priority y <= p_priority best) ->
  let S := prioritized A d last in
  (let! w := ofold (sv_join S) v l in sv_eval S w) = Done (p_value best) <->
  (forall y, In y l2 -> (if last then p_priority v <=? p_priority y else p_priority v <? p_priority y) = false).
Proof. exact C14_documented_iff_proof. Qed.
Print Assumptions C14_documented_iff.
Example C14_documented_iff_case :
  let S := prioritized Z 0 true in
  (let! w := ofold (sv_join S) (Prio 7 5) [Prio 1 9; Prio 2 9; Prio 3 6] in sv_eval S w) <> Done 2.
Proof.
  pose proof (C14_documented_iff Z 0 true (Prio 7 5) [Prio 1 9; Prio 2 9; Prio 3 6]
    [Prio 7 5; Prio 1 9] (Prio 2 9) [Prio 3 6]) as H. cbn zeta in *. cbn [p_value] in H. rewrite H; clear H.
  - intros H. specialize (H (Prio 3 6) (or_introl eq_refl)). discriminate H.
  - repeat constructor; cbn; intuition discriminate.
  - reflexivity.
  - cbn. intuition (subst; cbn; lia).
  - cbn. intuition (subst; cbn; lia).
Qed.
