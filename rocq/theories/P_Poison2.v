(** C57: one thread alone, and what poisons. *)
From Coq Require Import ZArith List Bool.
From Verif Require Import M_Outcome M_Value M_Types M_Qualifier M_Stat M_HashMap M_Pair M_Defaults M_Querier M_Poison
  S_Pair S_StatMap S_Querier S_Demo S_DemoQuery S_Poison L_Poison2.
Import ListNotations.
Local Open Scope Z_scope.

(** Running one thread to its end is a run of the threads [[m]], so all that is proved of
    interleavings holds of it. *)
Theorem C57_alone : forall (P : Prog) (Q : QFlag) (cp dp : buffer P -> bool) (A : Type) (m : act P Q A) st,
  exists m' lg, psteps cp dp ([m], st) lg ([m'], snd (prun cp dp m st)) /\ finished m' (fst (prun cp dp m st)).
Proof. exact C57_alone_proof. Qed.
Print Assumptions C57_alone.

(** The lock is poisoned exactly by a clone that panics while storing, or by a drop that panics
    while clearing; the call panics and the map is unchanged. *)
Theorem C57_poisoned_iff : forall (P : Prog) (Q : QFlag) (cp dp : buffer P -> bool) (A : Type) (m : act P Q A) c m' st' lg,
  pstep cp dp m (PCache c false) = Some (m', st', lg) ->
  (pc_poisoned st' = true <->
   (exists k b f, m = APut k b f /\ cp b = true) \/ (exists f k b, m = AClear f /\ In (k, b) c /\ dp b = true)) /\
  (pc_poisoned st' = true -> m' = AFail (Panics PUser) /\ pc_map st' = c).
Proof. exact C57_poisoned_iff_proof. Qed.
Print Assumptions C57_poisoned_iff.
Example C57_poisoned_iff_case :
  see_poison never (panics_at 4549) (PCache [] false) [Some 1; None; Some 0; None; Some 1]%nat = ([Done 130; Done 0; Done 4549; Panics PUser; Panics PUnwrap], true, 2%nat) /\
  see_poison (panics_at 4549) never (PCache [] false) [Some 1; Some 0; None]%nat = ([Done 130; Panics PUser; Panics PUnwrap], true, 1%nat).
Proof. split; vm_compute; reflexivity. Qed.
