From Coq Require Import ZArith List Bool String Permutation.
From Verif Require S_Types.
From Verif Require Import M_Outcome M_Ints M_Value M_Types M_Qualifier M_Search M_Stat M_StatMap M_HashMap M_Pair M_Defaults M_Querier S_Pair S_StatMap S_Querier S_Demo S_DemoDefaults S_DemoQuery L_Types L_StatMap L_Demo L_Defaults L_Querier L_Querier2 L_Querier3.
Import ListNotations.

Section Kept.
  Context {P : Prog} {Q : QFlag}.
  Lemma in_on (c : cstream P Q) e d x f : In f (on c e d x) -> exists i, f = c_stream c e i x.
  Proof. unfold on. destruct (c_get c d); [|intros []]. intros [<- |[]]. eauto. Qed.
  Lemma in_between (c : cstream P Q) e t x f : In f (between c e t x) -> exists i k, f = c_rel c i k x.
  Proof. unfold between. destruct (c_get c e); [|intros []]. destruct (c_get c t); [|intros []]. intros [<- |[]]. eauto. Qed.
  Lemma in_attr_on (c : cstream P Q) e d a p : In p (attr_on c e d a) -> exists i, p = c_attr c e i a.
  Proof. unfold attr_on. destruct (c_get c d); [|intros []]. intros [<- |[]]. eauto. Qed.
  (** Every source is one of the relations or one of the streams. *)
  Lemma source_cases (j : joined P Q) e ch x f : In f (stat_sources j e ch x) ->
    (exists g, In g (or_nil (w_relations (j_world j))) /\ f = g e x) \/
    (exists c i, In c (leaves (j_comp j) ++ leaves (j_rel j) ++ leaves (j_child j)) /\ f = c_stream c e i x).
  Proof.
    unfold stat_sources. rewrite !in_app_iff. intros [H|[H|[H|H]]].
    - apply in_map_iff in H as (g & <- & H). left. eauto.
    - apply in_flat_map in H as (c & Hc & H). apply in_on in H as [i ->]. right. exists c, i. rewrite !in_app_iff. auto.
    - apply in_flat_map in H as (c & Hc & H). apply in_on in H as [i ->]. right. exists c, i. rewrite !in_app_iff. auto.
    - apply in_flat_map in H as (c & Hc & H). apply in_flat_map in H as (d & _ & H). apply in_on in H as [i ->]. right. exists c, i. rewrite !in_app_iff. auto.
  Qed.
  Lemma rel_source_cases (j : joined P Q) f t x g : In g (rel_sources j f t x) ->
    (exists r, In r (or_nil (w_relations (j_world j))) /\ g = r (w_placeholder (j_world j)) x) \/
    (exists c i k, In c (leaves (j_rel j)) /\ g = c_rel c i k x).
  Proof.
    unfold rel_sources. rewrite !in_app_iff. intros [H|H].
    - apply in_map_iff in H as (r & <- & H). left. eauto.
    - apply in_flat_map in H as (c & Hc & H). apply in_between in H as (i & k & ->). right. eauto.
  Qed.
  Lemma attr_source_cases (j : joined P Q) e a p : In p (attr_sources j e a) ->
    exists c i, In c (leaves (j_comp j) ++ leaves (j_rel j) ++ leaves (j_child j)) /\ p = c_attr c e i a.
  Proof.
    unfold attr_sources. rewrite !in_app_iff. intros [H|[H|H]].
    - apply in_flat_map in H as (c & Hc & H). apply in_attr_on in H as [i ->]. exists c, i. rewrite !in_app_iff. auto.
    - apply in_flat_map in H as (c & Hc & H). apply in_attr_on in H as [i ->]. exists c, i. rewrite !in_app_iff. auto.
    - apply in_flat_map in H as (c & Hc & H). apply in_flat_map in H as (d & _ & H). apply in_attr_on in H as [i ->]. exists c, i. rewrite !in_app_iff. auto.
  Qed.
  Lemma returns_outcome {A} (R : A -> Prop) (o : outcome A) : (forall a, o = Done a -> R a) -> returns R (of_outcome (P := P) (Q := Q) o).
  Proof. destruct o; cbn; auto. Qed.
  Lemma no_wipe_outcome {A} (o : outcome A) : no_wipe (of_outcome (P := P) (Q := Q) o).
  Proof. destruct o; exact I. Qed.
  (** A map used as a stream keeps the stat and the type. *)
  Lemma map_stream_keeps bs (m : map_t P Q) (x : qquery Q) (p p' : pair P) : pair_ok p -> map_stream bs m x p = Done p' -> p_stat p' = p_stat p /\ pair_ok p'.
  Proof.
    unfold map_stream. intros Hp. destruct (slice bs m (p_stat p)) as [l| | |]; cbn [obind]; try discriminate.
    generalize (eq_refl (p_stat p)). generalize (p_stat p) at 1 3. intros s Hs. revert p Hp Hs.
    induction l as [|a l IH]; intros p Hp Hs; cbn [ofold]; [intros E; injection E as <-; auto|].
    destruct (qualifies_as (e_qual a) x); cbn [obind]; [|apply IH; assumption].
    unfold vt_join. destruct (validate_ty P (vt_value P (si_ty (p_stat p)))); cbn [obind]; try discriminate.
    destruct (cast_val P _ (p_buf p)); cbn [obind]; try discriminate. destruct (cast_val P _ (e_val a)); cbn [obind]; try discriminate.
    destruct (sv_join _ _ _); cbn [obind]; try discriminate. apply IH; [reflexivity|exact Hs].
  Qed.
End Kept.

Local Open Scope Z_scope.
Lemma intQ_flags : flags_eq (Q := intQ).
Proof. intros a b. apply Z.eqb_eq. Qed.
Lemma add_keeps i : keeps (Q := intQ) (add_to_hp i).
Proof.
  intros p Hp. apply returns_outcome. destruct (inst_eqb (p_stat p) hp) eqn:E.
  - apply (inst_eqb_ok demo demo_distinct) in E. destruct p as [s [t v]]. cbn in E. subst s. unfold pair_ok in Hp. cbn in Hp. subst t.
    change (pair_is_then_cast demoT (@Pair demo hp (@Buf demo VNum v)) hp) with (@Done (option (val (VT demo VNum))) (Some v)). cbn [obind].
    destruct (sv_add (VT demo VNum) v i) as [v'| | |]; cbn [obind]; try discriminate. intros p' E. injection E as <-. split; reflexivity.
  - unfold pair_is_then_cast. rewrite E. cbn. intros p' E'. injection E' as <-. split; [reflexivity|exact Hp].
Qed.
Lemma demo_kept b : stats_kept (demo_joined b).
Proof.
  intros e ch x f H. apply source_cases in H as [(g & Hg & ->)|(c & i & Hc & ->)].
  - destruct Hg as [<- |[]]. intros p Hp. apply returns_outcome. intros p' E. apply (map_stream_keeps _ _ _ _ _ Hp E).
  - cbn in Hc. destruct Hc as [<- |[<- |[<- |[<- |[]]]]]; try apply add_keeps.
    intros p Hp. cbn. intros [v|]; [apply add_keeps, Hp|split; [reflexivity|exact Hp]].
Qed.
Lemma demo_rel_kept b : relations_kept (demo_joined b).
Proof.
  intros e t x f H. apply rel_source_cases in H as [(g & Hg & ->)|(c & i & k & Hc & ->)].
  - destruct Hg as [<- |[]]. intros p Hp. apply returns_outcome. intros p' E. apply (map_stream_keeps _ _ _ _ _ Hp E).
  - cbn in Hc. destruct Hc as [<- |[]]; apply add_keeps.
Qed.
Lemma other_kept b : stats_kept (other_joined b).
Proof.
  intros e ch x f H. apply source_cases in H as [(g & Hg & ->)|(c & i & Hc & ->)].
  - destruct Hg as [<- |[]]. intros p Hp. apply returns_outcome. intros p' E. apply (map_stream_keeps _ _ _ _ _ Hp E).
  - cbn in Hc. destruct Hc as [<- |[]]; apply add_keeps.
Qed.
Lemma demo_no_wipe b : all_code (fun A p => no_wipe p) (demo_joined b).
Proof.
  constructor.
  - intros e ch x f p H. apply source_cases in H as [(g & Hg & ->)|(c & i & Hc & ->)].
    + destruct Hg as [<- |[]]. apply no_wipe_outcome.
    + cbn in Hc. destruct Hc as [<- |[<- |[<- |[<- |[]]]]]; try apply no_wipe_outcome. cbn. intros [v|]; [apply no_wipe_outcome|exact I].
  - intros e t x f p H. apply rel_source_cases in H as [(g & Hg & ->)|(c & i & k & Hc & ->)].
    + destruct Hg as [<- |[]]. apply no_wipe_outcome.
    + cbn in Hc. destruct Hc as [<- |[]]; apply no_wipe_outcome.
  - intros e a p H. apply attr_source_cases in H as (c & i & Hc & ->). cbn in Hc. destruct Hc as [<- |[<- |[<- |[<- |[]]]]]; cbn; auto.
Qed.
