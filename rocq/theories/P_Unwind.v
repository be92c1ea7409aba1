(** C56: a [StatMap] after a caught panic. *)
From Coq Require Import ZArith List Bool.
From Verif Require Import M_Outcome M_Ints M_Value M_Types M_Qualifier M_Search M_Stat M_StatMap M_Unwind
  S_Search S_StatMap S_Demo S_Unwind L_Unwind.
Import ListNotations.
Local Open Scope Z_scope.

(** In any history of calls some of which panic and are caught, with arbitrary values left behind
    by the panicking code, no call is undefined, and the map reached is one that a history without
    panics reaches: everything proved of maps holds of it. *)
Theorem C56_caught_panics_harmless :
  forall (P : Prog) (Q : QFlag) (bs : list comparison -> bsres),
  bs_contract bs -> distinct_vtables P -> lawful_ord (q_cmp Q) ->
  forall l : list (uop P Q), Forall sound_uop l ->
  u_run bs [] l <> UB /\
  forall m, u_run bs [] l = Done m -> exists l' : list (mop P Q), Forall sound_op l' /\ mops_run bs [] l' = Done m.
Proof. exact C56_caught_panics_harmless_proof. Qed.
Print Assumptions C56_caught_panics_harmless.
Example C56_caught_panics_harmless_case :
  let m := udemo [uplain (put_hp none 3); uplain (put_hp fire 2147483647); uadd fire 1; uadd ice 9; uplain (put_atk none 4)] in
  get_hp m fire = Done (Some (num 77)) /\ get_hp m none = Done (Some (num 3)) /\ get_atk m none = Done (Some (num 4)) /\ m_len m = 4%nat.
Proof. vm_compute. repeat split. Qed.

(** A panicking method adds and removes no key and changes no value but the ones it handed to
    user code for writing. *)
Theorem C56_panic_is_local :
  forall (P : Prog) (Q : QFlag) (bs : list comparison -> bsres),
  bs_contract bs -> distinct_vtables P -> lawful_ord (q_cmp Q) ->
  forall (l : list (uop P Q)) (m : map_t P Q) o r p, Forall sound_uop l -> u_run bs [] l = Done m ->
  mop_run bs m o = Panics p ->
  exists m', u_step bs m (UCall o r) = Done m' /\ kept_but (hands_out o) m m'.
Proof. exact C56_panic_is_local_proof. Qed.
Print Assumptions C56_panic_is_local.
(** What is left exactly: in the slot handed out, what the panicking code wrote there; after a
    loop, the updates before the panic. *)
Theorem C56_slot_left :
  forall (P : Prog) (Q : QFlag) (bs : list comparison -> bsres),
  bs_contract bs -> distinct_vtables P -> lawful_ord (q_cmp Q) ->
  forall (l : list (uop P Q)) (m : map_t P Q) o r p s q v, Forall sound_uop l -> u_run bs [] l = Done m ->
  mop_run bs m o = Panics p -> slot_of o s q -> holds m s q v ->
  exists m', u_step bs m (UCall o r) = Done m' /\ holds m' s q (r s).
Proof. exact C56_slot_left_proof. Qed.
Print Assumptions C56_slot_left.
Theorem C56_loop_left :
  forall (P : Prog) (Q : QFlag) (bs : list comparison -> bsres),
  bs_contract bs -> distinct_vtables P -> lawful_ord (q_cmp Q) ->
  forall (l : list (uop P Q)) (m : map_t P Q) s f r p, Forall sound_uop l -> u_run bs [] l = Done m ->
  mop_run bs m (MIterMut s f) = Panics p ->
  exists m', u_step bs m (UCall (MIterMut s f) r) = Done m' /\ loop_left s f r p m m'.
Proof. exact C56_loop_left_proof. Qed.
Print Assumptions C56_loop_left.
Example C56_panic_is_local_case :
  let m := udemo [uplain (put_hp none 3); uplain (put_hp fire 5); uplain (put_hp ice 7); uplain (put_atk none 4); ueach 100] in
  get_hp m none = Done (Some (num 103)) /\ get_hp m fire = Done (Some (num 105)) /\ get_hp m ice = Done (Some (num 77)) /\
  get_atk m none = Done (Some (num 4)).
Proof. vm_compute. repeat split. Qed.

(** Except [extend]: a user iterator that panics leaves the vector unsorted, and then a query in
    safe code reads a value at another type. *)
Theorem C56_extend_panic_refuted :
  exists (o1 o2 : dop) l m, u_run bs_new [] [uplain o1; uplain o2; uextend_atk l] = Done m /\
  m_query bs_new m (@Aggregate intQ 0) atk = UB.
Proof. exact C56_extend_panic_refuted_proof. Qed.
Print Assumptions C56_extend_panic_refuted.
(** Any later [extend], even of no items, restores the map to what the first would have made. *)
Theorem C56_extend_sorts_again :
  forall (P : Prog) (Q : QFlag) (bs : list comparison -> bsres) (m : map_t P Q) U l W r x,
  mop_run bs m (MExtend U l) = Done x ->
  u_run bs m [UExtendPanics U l; UCall (MExtend W []) r] = Done (x_map x).
Proof. exact C56_extend_sorts_again_proof. Qed.
Print Assumptions C56_extend_sorts_again.
Example C56_extend_case :
  let l := [uplain (put_alive none true); uplain (put_hp none 5); uextend_atk [(none, 0, num 1); (fire, 0, num 2)]] in
  query_atk_ub (udemo l) = true /\ query_atk_ub (udemo (l ++ [uplain (extend_hp [])])) = false /\
  get_atk (udemo (l ++ [uplain (extend_hp [])])) fire = Done (Some (num 2)).
Proof. vm_compute. repeat split. Qed.
