(** C64: references obtained from a pair. *)
From Coq Require Import ZArith List Bool.
From Verif Require Import M_Outcome M_Value M_Stat M_Pair M_Borrow S_StatMap S_Pair S_Demo S_Borrow L_Borrow.
Import ListNotations.

(** If the references were bound to the borrow of the pair, no accepted program had undefined behaviour. *)
Theorem C64_bound_sound :
  forall (P : Prog) (D : StatTypes P) (c : cmd P) (k : known P),
  distinct_vtables P -> index_sound D -> closures_sound c ->
  accepted Bound nothing c k -> forall r, exec D c start r -> r <> UB.
Proof. exact C64_bound_sound_proof. Qed.
Print Assumptions C64_bound_sound.
(** With the signatures as they are, accepted programs may have undefined behaviour. *)
Theorem C64_references_refuted :
  ~ (forall (P : Prog) (D : StatTypes P) (c : cmd P) (k : known P),
     distinct_vtables P -> index_sound D -> closures_sound c ->
     accepted Unbound nothing c k -> forall r, exec D c start r -> r <> UB).
Proof. exact C64_references_refuted_proof. Qed.
Print Assumptions C64_references_refuted.
(** Four such programs: two references at once; a reference used after the value was moved out, after its
    variable went out of scope, or after the value was replaced by one of another type. *)
Theorem C64_programs :
  Forall (fun c : cmd demo => closures_sound c /\ (exists k, accepted Unbound nothing c k) /\ exec demoT c start UB)
    [two_refs; after_into; after_scope; after_replace].
Proof. exact C64_programs_proof. Qed.
Print Assumptions C64_programs.
(** The discipline restricts the programs that are accepted as it is. *)
Theorem C64_bound_accepts_less :
  forall (P : Prog) (c : cmd P) (k k' : known P), accepted Bound k c k' -> accepted Unbound k c k'.
Proof. exact C64_bound_accepts_less_proof. Qed.
Print Assumptions C64_bound_accepts_less.
(** [match_stat!] keeps to the discipline if the bodies of its arms do. *)
Theorem C64_match_stat :
  forall (P : Prog) (k k' : known P) (r x : nat) (l : list (varm P)), k_here k x = true ->
  (forall a, In a l -> accepted Bound (borrows (ends Bound x k) r x (varm_ty a)) (varm_body a) k') ->
  less (Known P (k_here k) (fun q => if Nat.eqb r q then None else k_refs (ends Bound x k) q)) k' ->
  accepted Bound k (match_var r x l) k'.
Proof. exact C64_match_stat_proof. Qed.
Print Assumptions C64_match_stat.
Example C64_case : exists k st, (* a loop updating two pairs through references, a match_stat!, an into_result *)
  closures_sound in_turn /\ accepted Bound nothing in_turn k /\ exec demoT in_turn start (Done st) /\ base_of st 1 = Done 6%Z.
Proof. exact C64_case_proof. Qed.
