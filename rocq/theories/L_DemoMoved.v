(** Lemmas for the examples of grants made elsewhere; where it does matter. *)
From Coq Require Import ZArith List Bool Permutation Sorted Lia.
From Verif Require Import S_Types.
From Verif Require Import M_Outcome M_Ints M_Float M_Value M_Types M_Qualifier M_Search M_Stat M_StatMap M_HashMap M_Pair M_Defaults M_Querier
  S_Search S_StatMap S_Pair S_Defaults S_Querier S_Totals S_FloatTotals S_EndToEnd S_Moved S_Demo S_DemoDefaults S_DemoQuery S_DemoGame S_DemoGame2 S_DemoMoved
  L_Search L_StatMap L_Demo L_DemoQuery L_DemoGame.
Import ListNotations.
Local Open Scope Z_scope.

Lemma stat_same V : exists H, @stat_dec (solo V) (the_stat V) (the_stat V) = left H /\ H = eq_refl.
Proof. exists eq_refl. split; reflexivity. Qed.
Lemma single_chosen V a : chosen (the_stat V) (@Aggregate intQ 1) (single V a) [(none, FromBase a)].
Proof.
  split; [repeat constructor|]. intros q h. unfold single, account. cbn -[qual_cmp none qualifies_as]. split.
  - intros [E|[]]. injection E as <- <-. split; reflexivity.
  - intros [E K]. destruct (qual_cmp none q) eqn:Q; try discriminate. injection E as <-. apply (lo_eq _ (qual_ord intQ intQ_ord)) in Q. subst q. left. reflexivity.
Qed.
Lemma double_chosen V a b : chosen (the_stat V) (@Aggregate intQ 1) (double V a b) [(none, FromBase a); (fire, FromBase b)].
Proof.
  split; [repeat constructor|]. intros q h. unfold double, account. cbn -[qual_cmp none fire qualifies_as]. split.
  - intros [E|[E|[]]]; injection E as <- <-; split; reflexivity.
  - intros [E K]. destruct (qual_cmp fire q) eqn:Q.
    + injection E as <-. apply (lo_eq _ (qual_ord intQ intQ_ord)) in Q. subst q. right. left. reflexivity.
    + destruct (qual_cmp none q) eqn:R; try discriminate. injection E as <-. apply (lo_eq _ (qual_ord intQ intQ_ord)) in R. subst q. left. reflexivity.
    + destruct (qual_cmp none q) eqn:R; try discriminate. injection E as <-. apply (lo_eq _ (qual_ord intQ intQ_ord)) in R. subst q. left. reflexivity.
Qed.
Lemma here_there V a b c : moved (solo_game V (here V a b c)) (solo_game V (there V a b c)) 0%nat 0%nat (@Aggregate intQ 1) (the_stat V).
Proof.
  eexists. eexists. split; [reflexivity|]. split; [reflexivity|]. split; [reflexivity|].
  exists [[(none, FromBase a)]; [(none, FromBase b); (fire, FromBase c)]], [[(none, FromBase b); (fire, FromBase c)]; [(none, FromBase a)]].
  split; [constructor; [apply single_chosen|constructor; [apply double_chosen|constructor]]|].
  split; [constructor; [apply double_chosen|constructor; [apply single_chosen|constructor]]|].
  cbn. apply (Permutation_app_comm [FromBase a] [FromBase b; FromBase c]).
Qed.
Lemma here_set_up V a b c : solo_ok V (here V a b c) = true -> set_up bs_new (fun _ => 24) (fun _ => 8) (solo_game V (here V a b c)).
Proof. intros H. apply solo_set_up; [repeat constructor|exact H]. Qed.
Lemma there_set_up V a b c : solo_ok V (there V a b c) = true -> set_up bs_new (fun _ => 24) (fun _ => 8) (solo_game V (there V a b c)).
Proof. intros H. apply solo_set_up; [repeat constructor|exact H]. Qed.

Lemma C79_saturating_refuted_proof :
  exists l l', set_up bs_new (fun _ => 24) (fun _ => 8) (solo_game SS l) /\ set_up bs_new (fun _ => 24) (fun _ => 8) (solo_game SS l') /\
  moved (solo_game SS l) (solo_game SS l') 0%nat 0%nat (@Aggregate intQ 1) (the_stat SS) /\
  solo_burn SS l = Done (Some 27) /\ solo_burn SS l' = Done (Some 100).
Proof.
  exists (here SS 100 100 (-100)), (there SS 100 100 (-100)).
  split; [apply here_set_up; vm_compute; reflexivity|]. split; [apply there_set_up; vm_compute; reflexivity|]. split; [apply here_there|]. split; vm_compute; reflexivity.
Qed.
Lemma C79_float_refuted_proof :
  exists l l', set_up bs_new (fun _ => 24) (fun _ => 8) (solo_game FL l) /\ set_up bs_new (fun _ => 24) (fun _ => 8) (solo_game FL l') /\
  moved (solo_game FL l) (solo_game FL l') 0%nat 0%nat (@Aggregate intQ 1) (the_stat FL) /\
  burn_int (solo_burn FL l) = Some 16777216 /\ burn_int (solo_burn FL l') = Some 16777218.
Proof.
  exists (here FL (f32_int 16777216) (f32_int 1) (f32_int 1)), (there FL (f32_int 16777216) (f32_int 1) (f32_int 1)).
  split; [apply here_set_up; vm_compute; reflexivity|]. split; [apply there_set_up; vm_compute; reflexivity|]. split; [apply here_there|]. split; vm_compute; reflexivity.
Qed.
Lemma C79_checked_panic_refuted_proof :
  exists l l', set_up bs_new (fun _ => 24) (fun _ => 8) (solo_game S8 l) /\ set_up bs_new (fun _ => 24) (fun _ => 8) (solo_game S8 l') /\
  moved (solo_game S8 l) (solo_game S8 l') 0%nat 0%nat (@Aggregate intQ 1) (the_stat S8) /\
  solo_burn S8 l = Panics POverflow /\ solo_burn S8 l' = Done (Some 100).
Proof.
  exists (here S8 100 100 (-100)), (there S8 100 100 (-100)).
  split; [apply here_set_up; vm_compute; reflexivity|]. split; [apply there_set_up; vm_compute; reflexivity|]. split; [apply here_there|]. split; vm_compute; reflexivity.
Qed.
Lemma C79_Prioritized_refuted_proof :
  exists l l', set_up bs_new (fun _ => 24) (fun _ => 8) (solo_game PZ l) /\ set_up bs_new (fun _ => 24) (fun _ => 8) (solo_game PZ l') /\
  moved (solo_game PZ l) (solo_game PZ l') 0%nat 0%nat (@Aggregate intQ 1) (the_stat PZ) /\
  solo_burn PZ l = Done (Some 30) /\ solo_burn PZ l' = Done (Some 10).
Proof.
  exists (here PZ (Prio 10 5) (Prio 20 3) (Prio 30 1)), (there PZ (Prio 10 5) (Prio 20 3) (Prio 30 1)).
  split; [apply here_set_up; vm_compute; reflexivity|]. split; [apply there_set_up; vm_compute; reflexivity|]. split; [apply here_there|]. split; vm_compute; reflexivity.
Qed.
