(** C07 and C51 for all histories, bulk insertion included. *)
From Coq Require Import String ZArith List Bool.
From Verif Require Import M_Outcome M_Value M_Types M_Qualifier M_Search M_Stat M_StatMap M_Registry M_Serde
  S_Search S_StatMap S_Demo S_Registry S_Serde L_NoRepeats.
Import ListNotations.
Local Open Scope Z_scope.

(** A map that holds no key twice, whatever calls it took, is one that single operations reach; so all
    that is proved of those holds of it. No other map is. *)
Theorem C07_no_repeats :
  forall (P : Prog) (Q : QFlag) (bs : list comparison -> bsres),
  bs_contract bs -> distinct_vtables P -> lawful_ord (q_cmp Q) ->
  forall (l : list (mop P Q)) (m : map_t P Q), Forall sound_op l -> mops_run bs [] l = Done m ->
  (NoDup (map (fun e => (e_stat e, e_qual e)) m) <-> exists l', Forall tsingle l' /\ mops_run bs [] l' = Done m).
Proof. exact C07_no_repeats_proof. Qed.
Print Assumptions C07_no_repeats.
Example C07_no_repeats_case :
  let l := [put_hp fire 3; extend_hp [(ice, 0, num 4); (fire, 0, num 5)]; MRemove fire hp; MRemove ice hp; put_hp none 2] in
  iter_hp (demo_run l) = iter_hp (demo_run [put_hp none 2; put_hp fire 3]) /\
  iter_hp (demo_run (firstn 2 l)) = Done [(0, 1, 3); (0, 1, 5); (0, 2, 4)].
Proof. split; vm_compute; reflexivity. Qed.

(** Histories with bulk insertions too, if in the end no key is held twice. *)
Theorem C51_no_repeats :
  forall (P : Prog) (Q : QFlag) (N : StatNames P) (C : Codec P Q) (bs : list comparison -> bsres),
  bs_contract bs -> distinct_vtables P -> lawful_ord (q_cmp Q) ->
  forall (l1 l2 : list (mop P Q)) m1 m2, Forall sound_op l1 -> Forall sound_op l2 ->
  mops_run bs [] l1 = Done m1 -> mops_run bs [] l2 = Done m2 ->
  NoDup (map (fun e => (e_stat e, e_qual e)) m1) -> NoDup (map (fun e => (e_stat e, e_qual e)) m2) ->
  (forall q s, m_get bs m1 q s = m_get bs m2 q s) ->
  m1 = m2 /\ ser_map N C m1 = ser_map N C m2.
Proof. exact C51_no_repeats_proof. Qed.
Print Assumptions C51_no_repeats.
Example C51_no_repeats_case :
  saved [extend_hp [(ice, 0, num 2); (fire, 0, num 3)]; put_hp ice 4] = saved [put_hp fire 3; extend_hp [(ice, 0, num 4)]].
Proof. vm_compute. reflexivity. Qed.

(** False without that: a key held twice is saved twice, though [get] sees one value. *)
Theorem C51_repeats_refuted :
  exists l1 l2 : list dop, runs l1 = true /\ runs l2 = true /\
  (forall q s, m_get bs_new (demo_run l1) q s = m_get bs_new (demo_run l2) q s) /\ saved l1 <> saved l2.
Proof. exact C51_repeats_refuted_proof. Qed.
Print Assumptions C51_repeats_refuted.
