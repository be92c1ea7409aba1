From Coq Require Import ZArith List Bool String Lia.
From Verif Require Import M_Outcome M_Ints M_Ratio M_Float M_Value M_Types M_Qualifier M_Search M_Stat M_StatMap M_HashMap M_Pair M_Defaults M_Querier
  S_StatMap S_Defaults S_Querier S_Totals S_EndToEnd S_Demo S_DemoDefaults S_DemoQuery S_DemoGame.
Import ListNotations.
Local Open Scope Z_scope.

Lemma plain_unrepeated {P Q} (l : list (edit P Q)) : plain_log l = true -> unrepeated l.
Proof.
  intros H l1 U k l2 ->. unfold plain_log in H. rewrite forallb_app in H. apply andb_prop in H as [_ H]. discriminate.
Qed.
Lemma first_unrepeated {P Q} U k (l : list (edit P Q)) : NoDup (map fst k) -> plain_log l = true -> unrepeated (EExtend U k :: l).
Proof.
  intros N H [|e l1] U' k' l2 E.
  - cbn [app] in E. assert (U' = U) by (injection E; congruence). subst U'. injection E as E _.
    apply (Eqdep_dec.inj_pair2_eq_dec _ (sty_dec P)) in E. subst k'. split; [exact N|]. reflexivity.
  - cbn [app] in E. injection E as _ E. exact (plain_unrepeated l H l1 U' k' l2 E) || (exfalso; subst l; unfold plain_log in H; rewrite forallb_app in H; apply andb_prop in H as [_ H]; discriminate).
Qed.
Lemma demo_logged (l : list gedit) : Forall honest l -> unrepeated l -> runs (map method l) = true -> logged bs_new (demo_run (map method l)) l.
Proof.
  intros H U R. split; [exact H|]. split; [exact U|]. unfold runs in R. unfold demo_run. destruct (mops_run bs_new [] (map method l)); try discriminate. reflexivity.
Qed.
Lemma keeper_faithful (t : list (entity * list gedit)) : Forall (fun p => Forall honest (snd p) /\ plain_log (snd p) = true /\ runs (map method (snd p)) = true) t -> faithful bs_new (keeper t).
Proof.
  intros H d. unfold keeper, k_map, k_log. unfold tab. destruct (List.find (fun p : entity * list gedit => Nat.eqb (fst p) d) t) as [p|] eqn:E; [|exact I].
  cbn [option_map]. apply find_some in E as [E _]. rewrite Forall_forall in H. destruct (H p E) as (H1 & H2 & H3). apply demo_logged; [assumption|apply plain_unrepeated, H2|assumption].
Qed.
Lemma demo_set_up cached : set_up bs_new op_size op_align (demo_game cached).
Proof.
  constructor.
  - cbn [g_defaults demo_game g_querier game_querier with_children sq_with_component j_world game_world w_defaults].
    split; [repeat constructor|]. split.
    + intros s [(op & [H|[H|[]]]) Hn]; [discriminate H|]. assert (s = hp) by (injection H; congruence). subst s.
      apply (Hn (Quad 100 (-2147483648) 2147483647 1)). left. reflexivity.
    + assert (K : defaults_ok (map dmethod demo_dlog) = Done 0%nat) by (vm_compute; reflexivity). unfold defaults_ok in K. unfold demo_defaults.
      destruct (d_run op_size op_align [] (map dmethod demo_dlog)) as [[d lost]| | |]; try discriminate. exists lost. reflexivity.
  - reflexivity.
  - constructor; [|constructor]. apply demo_logged; [repeat constructor| |vm_compute; reflexivity].
    apply first_unrepeated; [|reflexivity]. repeat constructor; cbn; intros H; repeat destruct H as [H|H]; discriminate || contradiction.
  - reflexivity.
  - reflexivity.
  - reflexivity.
  - cbn [g_comp g_rel g_child demo_game app]. repeat apply Forall_cons; [| |apply Forall_nil]; apply keeper_faithful; repeat apply Forall_cons; try apply Forall_nil;
      (split; [cbn [snd]; repeat constructor|split; vm_compute; reflexivity]).
Qed.
Lemma solo_distinct V : distinct_vtables (solo V).
Proof. intros [] [] _. reflexivity. Qed.
Lemma solo_set_up V l : Forall (Forall honest) l -> solo_ok V l = true -> set_up bs_new (fun _ => 24) (fun _ => 8) (solo_game V l).
Proof.
  intros Hh Ho. constructor; try reflexivity; [apply Forall_nil|].
  assert (K : faithful bs_new (solo_keeper V l)).
  { intros d. unfold solo_keeper, k_map, k_log. destruct (nth_error l d) as [e|] eqn:E; [|exact I]. apply nth_error_In in E.
    unfold solo_ok in Ho. rewrite forallb_forall in Ho. specialize (Ho e E). rewrite Forall_forall in Hh. specialize (Hh e E).
    unfold solo_run in *. destruct (mops_run bs_new [] (map method e)) as [m| | |] eqn:Em; try discriminate. split; [assumption|]. split; [apply plain_unrepeated, Ho|exact Em]. }
  cbn [solo_game g_comp g_rel g_child app]. repeat constructor; assumption.
Qed.
