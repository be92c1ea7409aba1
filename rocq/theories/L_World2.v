(** Defaults of a world after any calls. *)
From Coq Require Import ZArith List Bool String.
From Verif Require Import M_Outcome M_Value M_Types M_Qualifier M_Search M_Stat M_StatMap M_HashMap M_Pair M_Defaults M_Registry M_Querier M_World
  S_Pair S_StatMap S_Defaults S_Defaults2 S_Querier S_World L_StatMap3 L_Defaults2 L_World.
Import ListNotations.

Lemma C52_defaults_any_proof : forall (P : Prog) (Q : QFlag) (N : StatNames P) (o_size o_align : vty P -> Z) (l : list (wop P Q)) (r : resources P Q)
    (sc : scene P Q) (n : nat) e x s,
  distinct_vtables P -> relations_pushed l = [] -> plain sc -> sc_entities sc e <> None -> fits s ->
  w_run N o_size o_align no_resources l = Done r -> content (r_cache r) = [] ->
  (Forall (fun c => call_stat c <> s) (default_calls l) ->
     fst (w_query r sc (S n) (p_query e x s)) = Done (Some (sv_default (VT P (vt_value P (si_ty s)))))) /\
  (forall l1 v l2, default_calls l = l1 ++ DInsert s v :: l2 -> (forall w, ~ In (DInsert s w) l2) ->
     exists v', patched s l2 v v' /\ fst (w_query r sc (S n) (p_query e x s)) = Done (Some v')) /\
  (fst (w_query r sc (S n) (p_query e x s)) = UB <-> orphaned (default_calls l) s).
Proof.
  intros P Q N o_size o_align l r sc n e x s Hd Hr Hp He Hf Hw Hcache.
  destruct (resources_after P Q N o_size o_align l r Hw) as (((lost & Hdr) & Hdn) & (Hrr & _) & _).
  destruct (C23_any_history_proof P o_size o_align _ _ _ s Hd Hf Hdr) as (A & B & _).
  assert (G : forall v, d_get (content (r_defaults r)) s = Done v -> fst (w_query r sc (S n) (p_query e x s)) = Done (Some v)).
  { intros v Hv. apply (plain_query_l Hd r sc n e x s); auto; [rewrite Hrr; exact Hr|]. destruct (r_defaults r); exact Hv. }
  split; [|split].
  - intros H. apply G, A, H.
  - intros l1 v l2 El Hn. destruct (B l1 v l2 El Hn) as (v' & Hv & E). exists v'. split; [exact Hv|apply G, E].
  - split.
    + intros E. destruct (three Hd (default_calls l) s) as [H0|[H0|(l1 & v & l2 & El & Hn)]]; [|exact H0|].
      * rewrite (G _ (A H0)) in E. discriminate.
      * destruct (B l1 v l2 El Hn) as (v' & _ & E'). rewrite (G _ E') in E. discriminate.
    + intros O. destruct (r_defaults r) as [d|] eqn:Ed; cbn [content] in *.
      * unfold w_query. eapply (C23_query_orphaned_proof P Q o_size o_align (default_calls l) d lost s (querier_of r sc) n e x); [exact Hd|exact Hf|exact Hdr|exact O|exact Ed|exact He|].
        intros _. destruct (r_cache r) as [c|]; cbn [content or_insert] in *; [subst c; reflexivity|reflexivity].
      * exfalso. destruct O as [(op & Ho) _]. rewrite (proj1 Hdn eq_refl) in Ho. destruct Ho.
Qed.
