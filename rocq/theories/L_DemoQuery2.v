(** The demo queriers meet the hypotheses of the query theorems. *)
From Coq Require Import ZArith List Bool String Lia PeanoNat Permutation Relations Wf_nat.
From Verif Require S_Types.
From Verif Require Import M_Outcome M_Ints M_Value M_Types M_Qualifier M_Search M_Stat M_StatMap M_HashMap M_Pair M_Defaults M_Querier S_Pair S_StatMap S_Querier S_Demo S_DemoDefaults S_DemoQuery L_Types L_StatMap L_StatMap3 L_Demo L_Defaults L_Querier L_Querier2 L_Querier3 L_DemoQuery.
Import ListNotations.
Local Open Scope Z_scope.

Notation dpair := (pair demo).
Lemma fuel_chk oc t z : chk oc t z <> NoFuel /\ chk oc t z <> UB.
Proof. unfold chk. destruct (in_range t z); [split; discriminate|]. destruct oc; split; discriminate. Qed.
Lemma at_hp (s : inst demo) : (inst_eqb s hp = true /\ s = hp) \/ inst_eqb s hp = false.
Proof. destruct (inst_eqb s hp) eqn:E; [left; split; [reflexivity|apply (inst_eqb_ok demo demo_distinct), E]|right; reflexivity]. Qed.
Lemma cast_at_hp (v : val (VT demo VNum)) : pair_is_then_cast demoT (@Pair demo hp (@Buf demo VNum v)) hp = @Done (option (val (VT demo VNum))) (Some v).
Proof. reflexivity. Qed.
Lemma cast_off_hp (p : dpair) : inst_eqb (p_stat p) hp = false -> pair_is_then_cast demoT p hp = Done None.
Proof. intros E. unfold pair_is_then_cast. rewrite E. reflexivity. Qed.
Lemma stops_lift (R : outcome Empty_set -> Prop) (o : outcome dpair) : (forall p, R (Panics p)) -> (o = UB -> R UB) -> (o = NoFuel -> R NoFuel) ->
  stops (P := demo) (Q := intQ) R (of_outcome o).
Proof. intros. apply stops_outcome; auto. Qed.
Lemma num_add (v : val (VT demo VNum)) (x : Z) : sv_add (VT demo VNum) v x <> NoFuel /\ sv_add (VT demo VNum) v x <> UB.
Proof.
  cbn. unfold q_add, i_add, i_norm. cbn. destruct (chk true I32 (addend v + x)) eqn:E; cbn; try (split; discriminate);
    destruct (fuel_chk true I32 (addend v + x)); congruence.
Qed.
Lemma add_fuel i (p : dpair) : stops (Q := intQ) (fun o => o <> NoFuel) (add_to_hp i p).
Proof.
  apply stops_lift; [discriminate|discriminate|]. destruct (at_hp (p_stat p)) as [[E _]|E].
  - unfold pair_is_then_cast. rewrite E. change (validate_stat demoT (si_ty hp)) with (@Done unit tt). cbn [obind].
    pose proof (@cast_fuel demo VNum (p_buf p)) as Hc. change (vt_value demo (si_ty hp)) with VNum.
    destruct (cast_val demo VNum (p_buf p)) as [v| | |]; cbn [obind]; try congruence; try discriminate.
    destruct (num_add v i) as [H _]. destruct (sv_add (VT demo VNum) v i); cbn [obind]; try congruence; discriminate.
  - rewrite (cast_off_hp p E). discriminate.
Qed.
Lemma add_sound i (p : dpair) : pair_ok p -> stops (Q := intQ) (fun o => o <> UB) (add_to_hp i p).
Proof.
  intros Hp. apply stops_lift; [discriminate| |discriminate]. destruct (at_hp (p_stat p)) as [[_ E]|E].
  - destruct p as [s [t v]]. cbn in E. subst s. unfold pair_ok in Hp. cbn in Hp. subst t. rewrite cast_at_hp. cbn [obind].
    destruct (num_add v i) as [_ H]. destruct (sv_add (VT demo VNum) v i); cbn [obind]; try congruence; discriminate.
  - rewrite (cast_off_hp p E). discriminate.
Qed.
Lemma bare_fuel : all_code (fun A p => stops (fun o => o <> NoFuel) p) bare_demo.
Proof.
  constructor.
  - intros e ch x f p H. apply source_cases in H as [(g & [] & _)|(c & i & Hc & ->)].
    cbn in Hc. destruct Hc as [<- |[<- |[<- |[<- |[]]]]]; try apply add_fuel. cbn. intros [v|]; [apply add_fuel|exact I].
  - intros e t x f p H. apply rel_source_cases in H as [(g & [] & _)|(c & i & k & Hc & ->)]. cbn in Hc. destruct Hc as [<- |[]]. apply add_fuel.
  - intros e a p H. apply attr_source_cases in H as (c & i & Hc & ->). cbn in Hc. destruct Hc as [<- |[<- |[<- |[<- |[]]]]]; cbn; auto.
Qed.
Lemma bare_sound : code_sound bare_demo.
Proof.
  constructor.
  - intros e ch x f p H Hp. apply source_cases in H as [(g & [] & _)|(c & i & Hc & ->)].
    cbn in Hc. destruct Hc as [<- |[<- |[<- |[<- |[]]]]]; try (apply add_sound, Hp). cbn. intros [v|]; [apply add_sound, Hp|exact I].
  - intros e t x f p H Hp. apply rel_source_cases in H as [(g & [] & _)|(c & i & k & Hc & ->)]. cbn in Hc. destruct Hc as [<- |[]]. apply add_sound, Hp.
  - intros e a p H. apply attr_source_cases in H as (c & i & Hc & ->). cbn in Hc. destruct Hc as [<- |[<- |[<- |[<- |[]]]]]; cbn; auto.
Qed.
Lemma bare_kept : stats_kept bare_demo /\ relations_kept bare_demo.
Proof.
  split.
  - intros e ch x f H. apply source_cases in H as [(g & [] & _)|(c & i & Hc & ->)].
    cbn in Hc. destruct Hc as [<- |[<- |[<- |[<- |[]]]]]; try apply add_keeps.
    intros p Hp. cbn. intros [v|]; [apply add_keeps, Hp|split; [reflexivity|exact Hp]].
  - intros e t x f H. apply rel_source_cases in H as [(g & [] & _)|(c & i & k & Hc & ->)]. cbn in Hc. destruct Hc as [<- |[]]; apply add_keeps.
Qed.
Lemma swapping_sound by_ b : code_sound (swapping by_ b).
Proof.
  constructor.
  - intros e ch x f p H _. apply source_cases in H as [(g & [] & _)|(c & i & Hc & ->)]. cbn in Hc. destruct Hc as [<- |[]]. exact I.
  - intros e t x f p H _. apply rel_source_cases in H as [(g & [] & _)|(c & i & k & Hc & ->)]. destruct Hc.
  - intros e a p H. apply attr_source_cases in H as (c & i & Hc & ->). cbn in Hc. destruct Hc as [<- |[]]. exact I.
Qed.

(** ** Well-founded questions *)
Lemma only_bind (R : request demo intQ -> Prop) {A B} (p : dprog A) (f : A -> dprog B) : only_asks R p -> (forall a, only_asks R (f a)) -> only_asks R (pbind p f).
Proof. intros H Hf. induction p as [a|o|r k IH|k IH]; cbn in *; auto. destruct H as [H1 H2]. split; auto. Qed.
Lemma only_outcome (R : request demo intQ -> Prop) {A} (o : outcome A) : only_asks R (of_outcome o).
Proof. destruct o; exact I. Qed.
Lemma only_fold (R : request demo intQ -> Prop) (l : list (dpair -> dprog dpair)) : (forall f p, In f l -> only_asks R (f p)) -> forall p, only_asks R (pfold (fun p f => f p) p l).
Proof.
  induction l as [|f l IH]; intros H p; cbn; [exact I|]. apply only_bind; [apply H; left; reflexivity|]. intros a. apply IH. intros g q Hg. apply H. right. exact Hg.
Qed.
Lemma only_first (R : request demo intQ -> Prop) (l : list (dprog bool)) : (forall p, In p l -> only_asks R p) -> only_asks R (first_true (fun p => p) l).
Proof.
  induction l as [|f l IH]; intros H; cbn; [exact I|]. apply only_bind; [apply H; left; reflexivity|]. intros [|]; [exact I|]. apply IH. intros g Hg. apply H. right. exact Hg.
Qed.
Lemma tab_get d (i : entity) : tab [(0, 1); (5, 1)]%nat d = Some i -> i = 1%nat /\ d <> 1%nat.
Proof. destruct d as [|[|[|[|[|[|d]]]]]]; cbn; intros E; try discriminate E; injection E as <-; split; lia. Qed.
Lemma to1_get d (i : entity) : c_get to1 d = Some i -> i = 1%nat /\ d <> 1%nat.
Proof. exact (tab_get d i). Qed.
Lemma gear_only R get e d x f p : In f (on (gear get) e d x) -> only_asks R (f p).
Proof. unfold on. destruct (c_get (gear get) d); [|intros []]. intros [<- |[]]. apply only_outcome. Qed.
Lemma gear_attr_only R get e d a p : In p (attr_on (gear get) e d a) -> only_asks (P := demo) (Q := intQ) R p.
Proof. unfold attr_on. destruct (c_get (gear get) d); [|intros []]. intros [<- |[]]. exact I. Qed.
Lemma bare_below : forall r, only_asks (fun r' => ltof _ rank r' r) (body bare_demo r).
Proof.
  intros [e x s|f t x s|e a]; cbn [body].
  - destruct (w_entities (j_world bare_demo) e) as [ch|]; [|exact I]. apply only_bind; [apply only_outcome|]. intros b. apply only_bind; [|intros; exact I].
    apply only_fold. intros g p Hg. unfold stat_sources in Hg. rewrite !in_app_iff in Hg. destruct Hg as [Hg|[Hg|[Hg|Hg]]].
    + destruct Hg.
    + apply in_flat_map in Hg as (c & Hc & Hg). cbn in Hc. destruct Hc as [<- |[<- |[]]]; [apply (gear_only _ _ _ _ _ _ _ Hg)|].
      unfold on in Hg. destruct (c_get to1 e) as [i|] eqn:Ei; [|destruct Hg]. destruct Hg as [<- |[]]. apply to1_get in Ei as [-> Hn].
      cbn. split; [unfold ltof, rank; cbn; apply Nat.eqb_neq in Hn; rewrite Hn; lia|]. intros [v|]; [apply only_outcome|exact I].
    + apply in_flat_map in Hg as (c & Hc & Hg). cbn in Hc. destruct Hc as [<- |[]]. apply (gear_only _ _ _ _ _ _ _ Hg).
    + apply in_flat_map in Hg as (c & Hc & Hg). cbn in Hc. destruct Hc as [<- |[]]. apply in_flat_map in Hg as (d & _ & Hg). apply (gear_only _ _ _ _ _ _ _ Hg).
  - destruct (w_entities (j_world bare_demo) f); [|exact I]. destruct (w_entities (j_world bare_demo) t); [|exact I].
    apply only_bind; [apply only_outcome|]. intros b. apply only_bind; [|intros; exact I].
    apply only_fold. intros g p Hg. apply rel_source_cases in Hg as [(r & [] & _)|(c & i & k & Hc & ->)]. cbn in Hc. destruct Hc as [<- |[]]. apply only_outcome.
  - apply only_first. intros p Hp. unfold attr_sources in Hp. rewrite !in_app_iff in Hp. destruct Hp as [Hp|[Hp|Hp]].
    + apply in_flat_map in Hp as (c & Hc & Hp). cbn in Hc. destruct Hc as [<- |[<- |[]]]; [apply (gear_attr_only _ _ _ _ _ _ Hp)|].
      unfold attr_on in Hp. destruct (c_get to1 e) as [i|] eqn:Ei; [|destruct Hp]. destruct Hp as [<- |[]]. apply to1_get in Ei as [-> Hn].
      cbn. split; [unfold ltof, rank; cbn; apply Nat.eqb_neq in Hn; rewrite Hn; lia|]. intros; exact I.
    + apply in_flat_map in Hp as (c & Hc & Hp). cbn in Hc. destruct Hc as [<- |[]]. apply (gear_attr_only _ _ _ _ _ _ Hp).
    + apply in_flat_map in Hp as (c & Hc & Hp). cbn in Hc. destruct Hc as [<- |[]]. apply in_flat_map in Hp as (d & _ & Hp). apply (gear_attr_only _ _ _ _ _ _ Hp).
Qed.
Lemma looping_kept b : stats_kept (looping b).
Proof.
  intros e ch x f H. apply source_cases in H as [(g & [] & _)|(c & i & Hc & ->)]. cbn in Hc. destruct Hc as [<- |[]].
  intros p Hp. cbn. intros [v|]; [apply add_keeps, Hp|split; [reflexivity|exact Hp]].
Qed.
Lemma looping_cycle b : clos_trans _ (depends (looping b)) (RStat 0%nat any hp) (RStat 0%nat any hp).
Proof.
  apply (t_trans _ _ _ (RStat 1%nat any hp)); apply t_step; unfold depends; apply asked_here; reflexivity.
Qed.

(** ** Contributions *)
Lemma op_contributes (E : forall t, S_Types.step (VT demo t) -> Prop) (f : dpair -> dprog dpair) (o : stat_op (VT demo VNum)) :
  S_Types.unordered (S_Types.SOp o) -> E VNum (S_Types.SOp o) ->
  (forall v, f (@Pair demo hp (@Buf demo VNum v)) = of_outcome (let! v' := write_to o v in Done (@Pair demo hp (@Buf demo VNum v')))) ->
  (forall p, inst_eqb (p_stat p) hp = false -> f p = Ret p) ->
  contributes E f.
Proof.
  intros Ho HE Hon Hoff s. destruct (at_hp s) as [[_ ->]|En].
  - exists (Ret [S_Types.SOp o]). split; [constructor; [split; assumption|constructor]|]. intros h v. change (vt_value demo (si_ty hp)) with VNum in *. rewrite Hon, oeval_of_outcome.
    cbn [oeval obind]. unfold S_Types.run. cbn [ofold S_Types.run_step]. destruct (write_to o v); reflexivity.
  - exists (Ret []). split; [constructor|]. intros h v. rewrite Hoff by exact En. reflexivity.
Qed.
Lemma add_contributes i : contributes (Q := intQ) (fun _ _ => True) (add_to_hp i).
Proof.
  apply (op_contributes (fun _ _ => True) (add_to_hp i) (@OAdd (VT demo VNum) i)); [exact I|exact I| |].
  - intros v. unfold add_to_hp. rewrite cast_at_hp. reflexivity.
  - intros p E. unfold add_to_hp. rewrite (cast_off_hp p E). reflexivity.
Qed.
Lemma link_contributes get e i x : contributes (fun _ _ => True) (c_stream (link get) e i x).
Proof.
  intros s. destruct (at_hp s) as [[_ ->]|En].
  - exists (Ask (RStat i x hp) (fun o : option (quad Z Z) => Ret match o with Some v => [S_Types.SOp (@OAdd (VT demo VNum) (addend v))] | None => [] end)). split.
    + cbn. intros [v|]; repeat constructor.
    + intros h v. cbn [c_stream link oeval]. destruct (check _) as [[]| | |]; cbn [obind]; try reflexivity. destruct (h (RStat i x hp)) as [o| | |]; cbn [obind]; try reflexivity.
      destruct (typed _ o) as [[w|]| | |]; cbn [obind]; try reflexivity. cbn [oeval]. unfold add_to_hp. rewrite oeval_of_outcome.
      change (vt_value demo (si_ty hp)) with VNum. rewrite cast_at_hp. cbn [obind]. unfold S_Types.run. cbn [ofold S_Types.run_step write_to].
      destruct (sv_add (VT demo VNum) v (addend w)); reflexivity.
  - exists (Ask (RStat i x hp) (fun _ => Ret [])). split; [cbn; intros; constructor|]. intros h v. cbn [c_stream link oeval].
    destruct (check _) as [[]| | |]; cbn [obind]; try reflexivity. destruct (h (RStat i x hp)) as [o| | |]; cbn [obind]; try reflexivity.
    destruct (typed _ o) as [[w|]| | |]; cbn [obind]; try reflexivity. unfold add_to_hp. rewrite oeval_of_outcome, cast_off_hp by exact En. reflexivity.
Qed.
Lemma one_order_contributing : contributing (fun _ _ => True) one_order.
Proof.
  constructor.
  - intros e ch x f H. apply source_cases in H as [(g & [] & _)|(c & i & Hc & ->)].
    cbn in Hc. destruct Hc as [<- |[<- |[<- |[<- |[]]]]]; try apply add_contributes. apply link_contributes.
  - intros e t x f H. apply rel_source_cases in H as [(g & [] & _)|(c & i & k & Hc & ->)]. cbn in Hc. destruct Hc as [<- |[]]. apply add_contributes.
  - intros e a p H. apply attr_source_cases in H as (c & i & Hc & ->). cbn in Hc. destruct Hc as [<- |[<- |[<- |[<- |[]]]]]; eexists; intros h; reflexivity.
Qed.
Lemma turned e : match w_entities bare_world e, w_entities turned_world e with
  | None, None => True | Some a, Some b => Permutation (or_nil a) (or_nil b) | _, _ => False end.
Proof.
  destruct e as [|[|[|[|[|e]]]]]; cbn; try exact I; try apply Permutation_refl.
  apply (Permutation_rev [1; 2; 3]%nat).
Qed.
Lemma one_order_rearranged : rearranged one_order other_order.
Proof.
  constructor; try reflexivity; try exact turned; cbn; try apply Permutation_refl. apply perm_swap.
Qed.
Lemma demo_agree : forall t, S_Types.order_free_if_done (VT demo t) (fun _ => True) (fun _ => True).
Proof.
  intros [|]; [apply statInt_agree|]. intros l l' Hp Hu He v r r' _ H1 H2.
  pose proof (bool_order_free l l' Hp Hu ltac:(apply Forall_forall; intros; exact I) v I) as E. change (VT demo VBool) with boolV in *. congruence.
Qed.
Lemma cap_contributes get e i x : contributes bounding (c_stream (cap get) e i x).
Proof.
  apply (op_contributes bounding _ (@OMax (VT demo VNum) i)); [exact I|exact I| |].
  - intros v. cbn [c_stream cap]. rewrite cast_at_hp. reflexivity.
  - intros p E. cbn [c_stream cap]. rewrite (cast_off_hp p E). reflexivity.
Qed.
Lemma caps_contributing : contributing bounding caps.
Proof.
  constructor.
  - intros e ch x f H. apply source_cases in H as [(g & [] & _)|(c & i & Hc & ->)]. cbn in Hc. destruct Hc as [<- |[<- |[<- |[]]]]; apply cap_contributes.
  - intros e t x f H. apply rel_source_cases in H as [(g & [] & _)|(c & i & k & Hc & ->)]. destruct Hc.
  - intros e a p H. apply attr_source_cases in H as (c & i & Hc & ->). cbn in Hc. destruct Hc as [<- |[<- |[<- |[]]]]; eexists; intros h; reflexivity.
Qed.
Lemma caps_rearranged : rearranged caps caps_turned.
Proof. constructor; try reflexivity; try exact turned; cbn; try apply Permutation_refl. apply perm_swap. Qed.
Lemma bounding_order_free : forall t, S_Types.order_free (VT demo t) (fun _ => True) (bounding t).
Proof.
  intros [|].
  - apply order_free_intro; auto. intros v s u _ Hs Hu _ _.
    destruct s as [[x|x|x|x|x|x|x]|x]; try destruct Hs; destruct u as [[y|y|y|y|y|y|y]|y]; try destruct Hu; cbn; unfold q_min, q_max; cbn; comm_quad.
  - intros l l' Hp Hu He v _. apply (bool_order_free l l' Hp Hu); [apply Forall_forall; intros; exact I|exact I].
Qed.
