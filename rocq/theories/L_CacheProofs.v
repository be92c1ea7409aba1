From Coq Require Import ZArith List Bool String Lia PeanoNat Permutation.
From Verif Require Import M_Outcome M_Value M_Types M_Qualifier M_Search M_Stat M_StatMap M_HashMap M_Pair M_Defaults M_Querier
  S_Pair S_StatMap S_Querier S_Demo S_DemoDefaults S_DemoQuery L_StatMap3 L_HashMap L_Demo L_Defaults L_Querier L_Querier2 L_Querier3 L_Querier4 L_DemoQuery.
Import ListNotations.
Local Open Scope Z_scope.

Lemma C27_transparent_proof : forall (P : Prog) (Q : QFlag) (j : joined P Q) (l : list (nat * prog P Q unit)) (n : nat) (A : Type) (p : prog P Q A),
  distinct_vtables P -> flags_eq (Q := Q) -> j_cached j = true -> stats_kept j ->
  same_as (fun n => fst (run (client (uncached j) n p) [])) n (fst (run (client j n p) (after j l []))).
Proof.
  intros P Q j l n A p Hd Hq Hc Hk.
  destruct (good_run Hd Hq (right j) (client j n p) _ (after j l []) (client_good j n p Hc Hk) (after_valid Hd Hq j Hc Hk l [] (valid_nil _))) as [[H1 H2] _].
  assert (Hu : forall n, fst (run (client (uncached j) n p) []) = ask j n p) by (intros m; rewrite client_uncached by reflexivity; cbn; apply ask_uncached).
  split.
  - intros Ho. destruct (H1 Ho) as [m Em]. exists m. rewrite Hu. exact Em.
  - rewrite Hu. exact H2.
Qed.

Lemma C27_entries_right_proof : forall (P : Prog) (Q : QFlag) (j : joined P Q) (l : list (nat * prog P Q unit)) e x s b,
  distinct_vtables P -> flags_eq (Q := Q) -> j_cached j = true -> stats_kept j ->
  hget key_eqb (after j l []) (e, x, s) = Some b ->
  exists v n, b = Buf (vt_value P (si_ty s)) v /\ fst (run (client (uncached j) n (p_query e x s)) []) = Done (Some v).
Proof.
  intros P Q j l e x s b Hd Hq Hc Hk H.
  destruct (after_valid Hd Hq j Hc Hk l [] (valid_nil _) (e, x, s) b H) as ((n & En) & Hty & Hf).
  destruct b as [t v]. cbn in Hty. subst t. exists v, n. split; [reflexivity|].
  destruct n as [|n]; [discriminate|]. rewrite run_query. unfold fits in Hf. rewrite Hf.
  rewrite (level_uncached (uncached j) (S n)) by reflexivity. rewrite answer_uncached, En. rewrite cast_val_same. reflexivity.
Qed.

Lemma C27_no_resource_proof : forall (P : Prog) (Q : QFlag) (j : joined P Q) (n : nat) (A : Type) (p : prog P Q A) (c : cache P Q),
  j_cached j = false -> snd (run (client j n p) c) = c /\ fst (run (client j n p) c) = fst (run (client j n p) []).
Proof. intros P Q j n A p c Hc. rewrite !(client_uncached j n p) by exact Hc. split; reflexivity. Qed.

Lemma C27_transparent_refuted_proof :
  exists (P : Prog) (Q : QFlag) (j : joined P Q) (n : nat) (p : prog P Q (option Z * option Z)),
    distinct_vtables P /\ flags_eq (Q := Q) /\ j_cached j = true /\
    exists a b, fst (run (client (uncached j) n p) []) = Done a /\ fst (run (client j n p) []) = Done b /\ a <> b.
Proof.
  exists demo, intQ, (swapping (atk_pair 5) true), 2%nat, (hp_then_atk 0%nat any).
  split; [exact demo_distinct|]. split; [exact intQ_flags|]. split; [reflexivity|].
  exists (Some 5, Some 0), (Some 5, Some 5).
  split; [change (see_both (swapping (atk_pair 5) false) 2 0%nat any = Done (Some 5, Some 0)); vm_compute; reflexivity|].
  split; [change (see_both (swapping (atk_pair 5) true) 2 0%nat any = Done (Some 5, Some 5)); vm_compute; reflexivity|]. intros E; discriminate E.
Qed.

Lemma C28_threads_proof : forall (P : Prog) (Q : QFlag) (j : joined P Q) (A : Type) (ts : list (nat * prog P Q A)) ms c,
  distinct_vtables P -> flags_eq (Q := Q) -> j_cached j = true -> stats_kept j ->
  steps (map (fun t => client j (fst t) (snd t)) ts, []) (ms, c) ->
  forall i t m o, nth_error ts i = Some t -> nth_error ms i = Some m -> finished m o ->
  same_as (fun n => fst (run (client (uncached j) n (snd t)) [])) (fst t) o.
Proof.
  intros P Q j A ts ms c Hd Hq Hc Hk Hs i t m o Ht Hm Hf.
  destruct (good_steps Hd Hq (right j) _ _ (map (fun t => rightly (fun n => ask j n (snd t)) (fst t)) ts) Hs) as [Hg _].
  - cbn. clear - Hc Hk. induction ts as [|t ts IH]; constructor; [|exact IH]. apply client_good; assumption.
  - apply valid_nil.
  - cbn in Hg. apply rightly_same. assert (Hr := Forall2_nth _ _ _ Hg i m _ Hm (map_nth_error (fun t => rightly (fun n => ask j n (snd t)) (fst t)) i ts Ht)).
    cbn in Hr. destruct m; cbn in Hf, Hr; try contradiction; rewrite Hf; exact Hr.
Qed.

Lemma C28_finite_proof : forall (P : Prog) (Q : QFlag) (A : Type) (states : nat -> list (act P Q A) * cache P Q),
  ~ forall i, one_step (states i) (states (S i)).
Proof.
  intros P Q A states H.
  assert (G : forall l, Acc stepR l -> forall i, fst (states i) = l -> False).
  { induction 1 as [l _ IH]. intros i Ei. destruct (H i) as (l1 & m & l2 & m' & E1 & E2 & E3).
    apply (IH (fst (states (S i)))) with (i := S i); [|reflexivity].
    exists l1, m, l2, (snd (states i)), m', (snd (states (S i))). rewrite <- Ei, E1, E2. auto. }
  apply (G _ (threads_acc (fst (states 0%nat))) 0%nat eq_refl).
Qed.

Lemma C29_clear_restores_proof : forall (P : Prog) (Q : QFlag) (j : joined P Q) (c : cache P Q) (n0 : nat) (l : list (nat * prog P Q unit)) (n : nat) (A : Type) (p : prog P Q A),
  distinct_vtables P -> flags_eq (Q := Q) -> j_cached j = true -> stats_kept j ->
  same_as (fun n => fst (run (client (uncached j) n p) [])) n (fst (run (client j n p) (after j ((n0, Wipe (Ret tt)) :: l) c))).
Proof.
  intros P Q j c n0 l n A p Hd Hq Hc Hk. apply rightly_same. cbn [after]. unfold client at 2. rewrite Hc. cbn [interp run snd].
  destruct (good_run Hd Hq (right j) (client j n p) _ (after j l []) (client_good j n p Hc Hk) (after_valid Hd Hq j Hc Hk l [] (valid_nil _))) as [H _]. exact H.
Qed.

Lemma C29_stale_proof : forall (P : Prog) (Q : QFlag) (j1 j2 : joined P Q) n1 n2 e x s v c c1 (l : list (joined P Q * nat * prog P Q unit)),
  distinct_vtables P -> flags_eq (Q := Q) ->
  j_cached j1 = true -> stats_kept j1 ->
  Forall (fun t => j_cached (fst (fst t)) = true /\ stats_kept (fst (fst t)) /\ all_code (fun A p => no_wipe p) (fst (fst t)) /\ no_wipe (snd t)) l ->
  j_cached j2 = true -> w_entities (j_world j2) e <> None ->
  run (client j1 n1 (p_query e x s)) c = (Done (Some v), c1) ->
  fst (run (client j2 (S n2) (p_query e x s)) (after_all l c1)) = Done (Some v).
Proof.
  intros P Q j1 j2 n1 n2 e x s v c c1 l Hd Hq Hc1 Hk1 Hl Hc2 He E.
  destruct (query_caches Hd Hq j1 n1 e x s v c c1 Hc1 Hk1 E) as [Hg Hf].
  assert (Hg' : hget key_eqb (after_all l c1) (e, x, s) = Some (Buf (vt_value P (si_ty s)) v)).
  { clear E. revert c1 Hg. induction Hl as [|[[j n] p] l (H1 & H2 & H3 & H4) _ IH]; intros c1 Hg; cbn; [exact Hg|]. apply IH.
    cbn in *. apply (stay_run Hd Hq); [|exact Hg]. apply client_stay; assumption. }
  rewrite (hit_returns j2 n2 e x s v _ Hc2 He Hg' Hf). reflexivity.
Qed.

Lemma C30_per_querier_refuted_proof :
  exists (P : Prog) (Q : QFlag) (j1 j2 : joined P Q) n e x s v w c1,
    distinct_vtables P /\ flags_eq (Q := Q) /\ stats_kept j1 /\ stats_kept j2 /\ j_world j1 = j_world j2 /\ j_cached j1 = true /\ j_cached j2 = true /\
    run (client j1 n (p_query e x s)) [] = (Done (Some v), c1) /\
    fst (run (client j2 n (p_query e x s)) c1) = Done (Some v) /\
    fst (run (client (uncached j2) n (p_query e x s)) []) = Done (Some w) /\ v <> w.
Proof.
  assert (E : exists c1, run (client (demo_joined true) 3 (p_query 0%nat any hp)) [] = (Done (Some (num 4549)), c1)).
  { exists (snd (run (client (demo_joined true) 3 (p_query 0%nat any hp)) [])).
    assert (E : see_hp (demo_joined true) 3 0%nat any = Done (Some (num 4549))) by (vm_compute; reflexivity).
    unfold see_hp in E. destruct (run (client (demo_joined true) 3 (p_query 0%nat any hp)) []). cbn in *. congruence. }
  destruct E as [c1 E].
  exists demo, intQ, (demo_joined true), (other_joined true), 3%nat, 0%nat, any, hp, (num 4549), (num 107), c1.
  split; [exact demo_distinct|]. split; [exact intQ_flags|]. split; [apply demo_kept|]. split; [apply other_kept|].
  split; [reflexivity|]. split; [reflexivity|]. split; [reflexivity|]. split; [exact E|]. split; [|split].
  - destruct (query_caches demo_distinct intQ_flags (demo_joined true) 3 0%nat any hp _ [] c1 eq_refl (demo_kept true) E) as [Hg Hf].
    rewrite (hit_returns (other_joined true) 2 0%nat any hp (num 4549) c1 eq_refl ltac:(discriminate) Hg Hf). reflexivity.
  - change (see_hp (other_joined false) 3 0%nat any = Done (Some (num 107))). vm_compute. reflexivity.
  - intros H. apply (f_equal (@addend Z Z)) in H. discriminate H.
Qed.

Lemma C30_agreeing_queriers_proof : forall (P : Prog) (Q : QFlag) (j1 j2 : joined P Q) (l : list (nat * prog P Q unit)) (n : nat) (A : Type) (p : prog P Q A),
  distinct_vtables P -> flags_eq (Q := Q) -> j_cached j1 = true -> stats_kept j1 -> j_cached j2 = true -> stats_kept j2 ->
  (forall n e x s v, fst (run (client (uncached j1) n (p_query e x s)) []) = Done (Some v) ->
     exists m, fst (run (client (uncached j2) m (p_query e x s)) []) = Done (Some v)) ->
  same_as (fun n => fst (run (client (uncached j2) n p) [])) n (fst (run (client j2 n p) (after j1 l []))).
Proof.
  intros P Q j1 j2 l n A p Hd Hq Hc1 Hk1 Hc2 Hk2 Hsame. apply rightly_same.
  refine (proj1 (good_run Hd Hq (right j2) (client j2 n p) _ (after j1 l []) (client_good j2 n p Hc2 Hk2) _)).
  intros [[e x] s] b Hg. destruct (after_valid Hd Hq j1 Hc1 Hk1 l [] (valid_nil _) (e, x, s) b Hg) as ((m & Em) & Hty & Hf).
  destruct b as [t v]. cbn in Hty. subst t. destruct m as [|m]; [discriminate|].
  assert (E1 : fst (run (client (uncached j1) (S m) (p_query e x s)) []) = Done (Some v)).
  { rewrite run_query. unfold fits in Hf. rewrite Hf. rewrite (level_uncached (uncached j1) (S m)) by reflexivity. rewrite answer_uncached, Em, cast_val_same. reflexivity. }
  destruct (Hsame _ _ _ _ _ E1) as [m2 E2]. destruct m2 as [|m2].
  { unfold client, p_query in E2. cbn in E2. destruct (validate_ty P _); discriminate E2. }
  rewrite run_query in E2. unfold fits in Hf. rewrite Hf in E2. rewrite (level_uncached (uncached j2) (S m2)) in E2 by reflexivity. rewrite answer_uncached in E2.
  destruct (answer j2 (S m2) (RStat e x s)) as [[b2|]| | |] eqn:Ea; cbn in E2; try discriminate E2.
  destruct (answer_stat_ty j2 (S m2) e x s b2 Hk2 Ea) as [Hty2 _]. destruct b2 as [t2 v2]. cbn in Hty2. subst t2.
  rewrite cast_val_same in E2. cbn in E2. injection E2 as ->.
  split; [exists (S m2); exact Ea|]. split; [reflexivity|exact Hf].
Qed.

Lemma C24_cache_conserved_proof : forall (P : Prog) (Q : QFlag) (j : joined P Q) (n : nat) (A : Type) (p : prog P Q A) (c : cache P Q),
  let m := client j n p in
  Permutation (map snd c ++ placed m c) (map snd (snd (run m c)) ++ displaced m c ++ cleared m c).
Proof. intros P Q j n A p c. apply conserved. Qed.

Lemma C24_cache_drop_ok_proof : forall (P : Prog) (Q : QFlag) (l : list (joined P Q * nat * prog P Q unit)),
  distinct_vtables P -> flags_eq (Q := Q) -> cache_drop (after_all l []) = Done tt.
Proof.
  intros P Q l Hd Hq. apply drop_ok.
  assert (G : forall c, (forall k b, In (k, b) c -> entry_ok k b) -> forall k b, In (k, b) (after_all l c) -> entry_ok k b).
  { induction l as [|[[j n] p] l IH]; intros c Hc; cbn; [exact Hc|]. apply IH. apply (puts_run Hd Hq); [|exact Hc]. apply puts_interp. apply puts_level. }
  apply G. intros k b [].
Qed.

Lemma C24_cache_alone_lossless_proof : forall (P : Prog) (Q : QFlag) (j : joined P Q) (l : list (nat * prog P Q unit)) (n : nat) (A : Type) (p : prog P Q A),
  distinct_vtables P -> flags_eq (Q := Q) -> j_cached j = true -> stats_kept j ->
  displaced (client j n p) (after j l []) = [].
Proof.
  intros P Q j l n A p Hd Hq Hc Hk. apply (client_fresh Hd Hq j Hc Hk n p). apply (after_valid Hd Hq j Hc Hk). apply valid_nil.
Qed.

Lemma C24_cache_refuted_proof :
  (exists (P : Prog) (Q : QFlag) (j : joined P Q) (p : prog P Q Z) m m' c,
     distinct_vtables P /\ flags_eq (Q := Q) /\ j_cached j = true /\ stats_kept j /\
     steps ([client j 3 p; client j 3 p], []) ([m; m'], c) /\ forgotten m' c <> []) /\
  (exists (P : Prog) (Q : QFlag) (j : joined P Q) (p : prog P Q (option Z * option Z)) c,
     distinct_vtables P /\ flags_eq (Q := Q) /\ displaced (client j 3 p) c <> []).
Proof.
  split.
  - assert (E : see_race (demo_joined true) [0; 1; 0; 1; 0; 1; 0]%nat = ([Some 4549; None], 1%nat)) by (vm_compute; reflexivity).
    unfold see_race in E.
    pose proof (schedule_steps [0; 1; 0; 1; 0; 1; 0]%nat ([client (demo_joined true) 3 (ask_hp 0%nat any); client (demo_joined true) 3 (ask_hp 0%nat any)], [])) as Hs.
    destruct (schedule [0; 1; 0; 1; 0; 1; 0]%nat ([client (demo_joined true) 3 (ask_hp 0%nat any); client (demo_joined true) 3 (ask_hp 0%nat any)], [])) as [ms c].
    cbn [fst snd] in E. injection E as E1 E2. destruct ms as [|m [|m' [|m2 ms]]]; try discriminate E2.
    exists demo, intQ, (demo_joined true), (ask_hp 0%nat any), m, m', c.
    split; [exact demo_distinct|]. split; [exact intQ_flags|]. split; [reflexivity|]. split; [apply demo_kept|]. split; [exact Hs|].
    intros H. rewrite H in E2. discriminate E2.
  - exists demo, intQ, (swapping (atk_pair 5) true), (Ask (RStat 0%nat any atk) (fun _ => hp_then_atk 0%nat any)), [].
    split; [exact demo_distinct|]. split; [exact intQ_flags|]. intros H. apply (f_equal (@List.length _)) in H. revert H.
    assert (E : List.length (displaced (client (swapping (atk_pair 5) true) 3 (Ask (RStat 0%nat any atk) (fun _ => hp_then_atk 0%nat any))) []) = 1%nat) by (vm_compute; reflexivity).
    rewrite E. discriminate.
Qed.

Lemma C24_query_start_lost_iff_proof : forall (P : Prog) (Q : QFlag) (w : world P Q) s b lost,
  start_value w s = Done (b, lost) -> (lost = [] <-> w_defaults w = None).
Proof.
  intros P Q w s b lost. unfold start_value. destruct (w_defaults w) as [d|]; cbn [obind].
  - destruct (d_get_dyn d s) as [[b0 l0]| | |]; cbn [obind]; try discriminate. destruct (vt_default P (si_ty s)); cbn [obind]; try discriminate.
    intros E. injection E as <- <-. split; [intros H; destruct l0; discriminate H|discriminate].
  - destruct (vt_default P (si_ty s)); cbn [obind]; try discriminate. intros E. injection E as <- <-. split; reflexivity.
Qed.
Lemma C28_progress_proof : forall (P : Prog) (Q : QFlag) (A : Type) (m : act P Q A) (c : cache P Q),
  (exists o, finished m o) \/ (exists r, astep m c = Some r).
Proof. exact (fun P Q A m c => unfinished_steps m c). Qed.
