(** C68: when the cache is poisoned. *)
From Coq Require Import ZArith List Bool.
From Verif Require Import M_Outcome M_Value M_Types M_Qualifier M_Stat M_HashMap M_Pair M_Defaults M_Querier M_Poison M_AnyEq
  S_Pair S_StatMap S_Querier S_Demo S_DemoQuery S_Poison S_AnyEq L_AnyEq3.
Import ListNotations.
Local Open Scope Z_scope.

(** A poisoned cache stays as it is and every operation on it panics. Reading poisons nothing.
    Storing stores or poisons, unless it is the clone of the query that panics. Clearing clears or
    poisons. *)
Theorem C68_poison : forall (P : Prog) (Q : QFlag) (cp dp : buffer P -> bool) (w : whim Q) (A : Type) (m : act P Q A) st m' st' lg,
  whim_step cp dp w m st = Some (m', st', lg) ->
  (pc_poisoned st = true -> st' = st /\ lg = no_log /\ exists p, m' = AFail (Panics p)) /\
  match m with
  | AGet k f => st' = st /\ lg = no_log
  | APut k b f => pc_poisoned st = false ->
      (m' = f /\ pc_poisoned st' = false /\ l_placed lg = [b] /\ exists k', In (k', b) (pc_map st')) \/
      (m' = AFail (Panics PUser) /\ st' = st /\ lg = no_log /\ w_clone w (key_query k) = None) \/
      (m' = AFail (Panics PUser) /\ pc_poisoned st' = true)
  | AClear f => pc_poisoned st = false ->
      (m' = f /\ st' = PCache [] false /\ l_dropped lg = map snd (pc_map st) /\ (forall b, In b (map snd (pc_map st)) -> dp b = false)) \/
      (m' = AFail (Panics PUser) /\ pc_poisoned st' = true)
  | _ => False
  end.
Proof. exact C68_poison_proof. Qed.
Print Assumptions C68_poison.
Example C68_poison_case :
  see_any bare_demo (PCache [] false) [(1%nat, any, List.repeat fair 9); (0%nat, any, List.repeat fair 2 ++ [rehash_panics]); (1%nat, any, List.repeat fair 9)]
    = ([Some (Done 23); Some (Panics PUser); Some (Panics PUnwrap)], true, 0%nat) /\
  see_any bare_demo (PCache [] false) [(1%nat, any, List.repeat fair 9); (1%nat, any, [eq_panics]); (1%nat, any, List.repeat fair 9)]
    = ([Some (Done 23); Some (Panics PUser); Some (Done 23)], false, 1%nat).
Proof. split; vm_compute; reflexivity. Qed.
