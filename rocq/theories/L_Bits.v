(** Queries of stats that are no numbers, over entities carrying maps (C65, C75). *)
From Coq Require Import ZArith List Bool Sorted Lia.
From Verif Require Import S_Types L_Ints.
From Verif Require Import M_Outcome M_Ints M_Ratio M_Float M_Value M_Types M_Qualifier M_Search M_Stat M_StatMap M_HashMap M_Pair M_Defaults M_Querier
  S_Ratio S_Search S_Pair S_StatMap S_Defaults S_Querier S_Totals S_EndToEnd S_Bits
  L_StatMap L_QueryProofs L_Totals L_EndToEnd L_EndToEnd2 L_EndToEnd3.
Import ListNotations.
Local Open Scope Z_scope.

(** ** One value *)
Section Flags.
  Variables (G : FlagsT) (F : Type) (mem : gcar G -> F -> Prop).
  Hypothesis L : lawful_flags G F mem.
  Definition bit0 (x : bitT (statFlags G)) : gcar G := x.
  Definition base0 (x : baseT (statFlags G)) : gcar G := x.
  Lemma any_app (l k : list (gcar G)) f : any_has mem (l ++ k) f <-> any_has mem l f \/ any_has mem k f.
  Proof.
    unfold any_has. split.
    - intros (b & I & M). apply in_app_iff in I as [I|I]; [left|right]; exists b; auto.
    - intros [(b & I & M)|(b & I & M)]; exists b; split; auto; apply in_app_iff; auto.
  Qed.
  Lemma any_one b f : any_has mem [b] f <-> mem b f.
  Proof. unfold any_has. split; [intros (c & [->|[]] & M); exact M|intros M; exists b; cbn; auto]. Qed.
  Lemma any_nil f : any_has mem [] f <-> False.
  Proof. unfold any_has. split; [intros (c & [] & _)|tauto]. Qed.

  Lemma flags_value (h : history (statFlags G)) : exists v, value_of h = Done v /\
    (forall f, mem (f_or v) f <-> any_has mem (sets bit0 base0 h) f) /\ (forall f, mem (f_not v) f <-> any_has mem (bans bit0 h) f).
  Proof.
    induction h as [|b|h IH o|h IH k IK].
    - eexists. split; [reflexivity|]. cbn [f_or f_not]. unfold sets, bans. cbn [gathered].
      split; intros f; rewrite any_nil; split; try tauto; apply (lf_default _ _ _ L).
    - eexists. split; [reflexivity|]. cbn. unfold sets, bans. cbn [gathered]. split; intros f; rewrite ?any_one, ?any_nil; [reflexivity|].
      split; [apply (lf_default _ _ _ L)|tauto].
    - destruct IH as (v & E & I1 & I2). destruct o as [[]|[]|x|x|[]|[]|x].
      + exists (FlagsV (f_not v) (g_or G (f_or v) x)). cbn [value_of]. rewrite E. split; [reflexivity|]. cbn [f_or f_not]. unfold sets, bans in *. cbn [gathered].
        split; intros f; [rewrite any_app, any_one, (lf_or _ _ _ L), I1; reflexivity|rewrite app_nil_r; apply I2].
      + exists (FlagsV (g_or G (f_not v) x) (f_or v)). cbn [value_of]. rewrite E. split; [reflexivity|]. cbn [f_or f_not]. unfold sets, bans in *. cbn [gathered].
        split; intros f; [rewrite app_nil_r; apply I1|rewrite any_app, any_one, (lf_or _ _ _ L), I2; reflexivity].
      + exists (FlagsV (g_default G) x). cbn [value_of]. rewrite E. split; [reflexivity|]. cbn [f_or f_not]. unfold sets, bans in *. cbn [gathered].
        split; intros f; rewrite ?any_one, ?any_nil; [reflexivity|]. split; [apply (lf_default _ _ _ L)|tauto].
    - destruct IH as (v & E & I1 & I2), IK as (w & E' & K1 & K2).
      exists (FlagsV (g_or G (f_not v) (f_not w)) (g_or G (f_or v) (f_or w))). cbn [value_of]. rewrite E, E'. split; [reflexivity|]. cbn [f_or f_not].
      unfold sets, bans in *. cbn [gathered].
      split; intros f; rewrite any_app, (lf_or _ _ _ L); [rewrite I1, K1|rewrite I2, K2]; reflexivity.
  Qed.
  Lemma flags_worth (h : history (statFlags G)) : exists r, worth h = Done r /\
    forall f, mem r f <-> any_has mem (sets bit0 base0 h) f /\ ~ any_has mem (bans bit0 h) f.
  Proof.
    destruct (flags_value h) as (v & E & I1 & I2). exists (g_exclude G (f_or v) (f_not v)). unfold worth. rewrite E. split; [reflexivity|].
    intros f. rewrite (lf_exclude _ _ _ L), I1, I2. reflexivity.
  Qed.
End Flags.

Lemma exists_worth (h : history statExists) : worth h = Done (existsb same (sets (same : bitT statExists -> bool) (same : baseT statExists -> bool) h)).
Proof.
  unfold worth. assert (E : value_of h = Done (existsb same (sets (same : bitT statExists -> bool) (same : baseT statExists -> bool) h))).
  { unfold sets. induction h as [|b|h IH o|h IH k IK]; cbn [value_of gathered].
    - reflexivity.
    - cbn. rewrite orb_false_r. reflexivity.
    - rewrite IH. destruct o as [[]|[]|x|x|[]|[]|x]; cbn [obind write_to statExists sv_or sv_not sv_from_base noop];
        rewrite ?existsb_app, ?app_nil_r; cbn [existsb]; unfold same; rewrite ?orb_false_r; reflexivity.
    - rewrite IH, IK. cbn [obind statExists sv_join]. rewrite existsb_app. reflexivity. }
  rewrite E. reflexivity.
Qed.

Lemma once_app {A} (l k : list A) : once_join (once_spec l) (once_spec k) = once_spec (l ++ k).
Proof. destruct l as [|a [|b l]], k as [|c [|d k]]; reflexivity. Qed.
Lemma once_worth A (h : history (statOnce A)) : worth h = Done (once_spec (sets (same : bitT (statOnce A) -> A) (same : baseT (statOnce A) -> A) h)).
Proof.
  unfold worth. assert (E : value_of h = Done (once_spec (sets (same : bitT (statOnce A) -> A) (same : baseT (statOnce A) -> A) h))).
  { unfold sets. induction h as [|b|h IH o|h IH k IK]; cbn [value_of gathered].
    - reflexivity.
    - reflexivity.
    - rewrite IH. destruct o as [[]|[]|x|x|[]|[]|x]; cbn [obind write_to statOnce sv_or sv_not sv_from_base noop]; rewrite ?app_nil_r; try reflexivity.
      rewrite <- once_app. destruct (once_spec _); reflexivity.
    - rewrite IH, IK. cbn [obind statOnce sv_join]. rewrite once_app. reflexivity. }
  rewrite E. reflexivity.
Qed.

Lemma bool_worth (h : history boolV) : worth h = Done (existsb same (bases (same : baseT boolV -> bool) h)).
Proof.
  unfold worth. assert (E : value_of h = Done (existsb same (bases (same : baseT boolV -> bool) h))).
  { unfold bases. induction h as [|b|h IH o|h IH k IK]; cbn [value_of gathered].
    - reflexivity.
    - cbn. rewrite orb_false_r. reflexivity.
    - rewrite IH. destruct o as [[]|[]|x|x|[]|[]|x]; cbn [obind write_to boolV sv_or sv_not sv_from_base noop];
        rewrite ?app_nil_r; cbn [existsb]; unfold same; rewrite ?orb_false_r; reflexivity.
    - rewrite IH, IK. cbn [obind boolV sv_join]. rewrite existsb_app. reflexivity. }
  rewrite E. reflexivity.
Qed.

(** A [Prioritized] that came about in some way has a value; joining keeps the first priority. *)
Lemma prio_value A d last (h : history (prioritized A d last)) : exists v : prio A, value_of h = Done v.
Proof.
  induction h as [|b|h [v E] o|h [v E] k [w F]]; cbn [value_of].
  - eexists. reflexivity.
  - eexists. reflexivity.
  - rewrite E. destruct o as [[]|[]|x|x|[]|[]|x]; eexists; reflexivity.
  - rewrite E, F. eexists. reflexivity.
Qed.
Lemma prio_joined A d last (l : list (history (prioritized A d last))) : forall (h : history (prioritized A d last)) (v : prio A) (vs : list (prio A)), value_of h = Done v ->
  Forall2 (fun (h : history (prioritized A d last)) (v : prio A) => value_of h = Done v) l vs ->
  exists r : prio A, value_of (fold_left Joined l h) = Done r /\ p_priority r = p_priority v /\
    p_value r = match last_above last (p_priority v) vs with Some a => a | None => p_value v end.
Proof.
  induction l as [|k l IH]; intros h v vs E H; inversion H; subst; clear H; cbn [fold_left last_above].
  - exists v. auto.
  - destruct (IH (Joined h k) (if (if last then p_priority v <=? p_priority y else p_priority v <? p_priority y) then Prio (p_value y) (p_priority v) else v) l')
      as (r & Er & Ep & Ev).
    + cbn [value_of]. rewrite E, H2. cbn [obind prioritized sv_join]. destruct last; reflexivity.
    + exact H4.
    + exists r. split; [exact Er|].
      assert (Q : p_priority (if (if last then p_priority v <=? p_priority y else p_priority v <? p_priority y) then Prio (p_value y) (p_priority v) else v) = p_priority v)
        by (destruct (if last then _ else _); reflexivity).
      rewrite Q in Ep, Ev. split; [exact Ep|]. rewrite Ev. destruct (last_above last (p_priority v) l'); [reflexivity|].
      destruct (if last then _ else _); reflexivity.
Qed.

(** ** Queries *)
Section Claims.
  Variables (P : Prog) (Q : QFlag) (bs : list comparison -> bsres) (o_size o_align : vty P -> Z).
  Notation VS s := (VT P (vt_value P (si_ty s))).

  Lemma C65_StatFlags_proof : bs_contract bs -> distinct_vtables P -> lawful_ord (q_cmp Q) -> flags_eq (Q := Q) ->
    forall (G : FlagsT) (F : Type) (mem : gcar G -> F -> Prop), lawful_flags G F mem ->
    forall (g : game P Q) e ch x s past (E : VS s = statFlags G),
    set_up bs o_size o_align g -> fits s -> w_entities (j_world (g_querier g)) e = Some ch ->
    exists sel, Forall2 (chosen s x) (logs_for g e (or_nil ch)) sel /\
    let all := map (seen_as E) (stories g s sel) in
    forall n, exists r, fst (run (client (g_querier g) (S n) (p_query_eval e x s)) (after (g_querier g) past [])) = Done (Some r) /\
      forall f, mem (result_as E r) f <->
        any_has mem (flat_map (@sets (statFlags G) (gcar G) same same) all) f /\ ~ any_has mem (flat_map (@bans (statFlags G) (gcar G) same) all) f.
  Proof.
    intros C D OQ Hq G F mem L g e ch x s past E U Fi He. destruct (eval_done P Q bs o_size o_align C D OQ Hq _ g e ch x s past E U Fi He) as (sel & H1 & H2 & _).
    exists sel. split; [exact H1|]. intros all n. fold all in H2. destruct (flags_worth G F mem L (together all)) as (w & W & M).
    destruct (H2 n w W) as (r & Hr & Er). exists r. split; [exact Hr|]. intros f. rewrite Er, M.
    unfold sets, bans, all, stories. cbn [map]. rewrite !gathered_together. reflexivity.
  Qed.
  Lemma C65_StatExists_proof : bs_contract bs -> distinct_vtables P -> lawful_ord (q_cmp Q) -> flags_eq (Q := Q) ->
    forall (g : game P Q) e ch x s past (E : VS s = statExists),
    set_up bs o_size o_align g -> fits s -> w_entities (j_world (g_querier g)) e = Some ch ->
    exists sel, Forall2 (chosen s x) (logs_for g e (or_nil ch)) sel /\
    let all := map (seen_as E) (stories g s sel) in
    forall n, exists r, fst (run (client (g_querier g) (S n) (p_query_eval e x s)) (after (g_querier g) past [])) = Done (Some r) /\
      (result_as E r = true <-> In true (flat_map (@sets statExists bool same same) all)).
  Proof.
    intros C D OQ Hq g e ch x s past E U Fi He. destruct (eval_done P Q bs o_size o_align C D OQ Hq _ g e ch x s past E U Fi He) as (sel & H1 & H2 & _).
    exists sel. split; [exact H1|]. intros all n. fold all in H2.
    destruct (H2 n _ (exists_worth (together all))) as (r & Hr & Er). exists r. split; [exact Hr|]. rewrite Er.
    unfold sets, all, stories. cbn [map]. rewrite !gathered_together, existsb_exists. unfold same. split; [intros (b & I & ->); exact I|intros I; exists true; auto].
  Qed.
  Lemma C65_bool_proof : bs_contract bs -> distinct_vtables P -> lawful_ord (q_cmp Q) -> flags_eq (Q := Q) ->
    forall (g : game P Q) e ch x s past (E : VS s = boolV),
    set_up bs o_size o_align g -> fits s -> w_entities (j_world (g_querier g)) e = Some ch ->
    exists sel, Forall2 (chosen s x) (logs_for g e (or_nil ch)) sel /\
    let all := map (seen_as E) (stories g s sel) in
    forall n, exists r, fst (run (client (g_querier g) (S n) (p_query_eval e x s)) (after (g_querier g) past [])) = Done (Some r) /\
      (result_as E r = true <-> In true (flat_map (@bases boolV bool same) all)).
  Proof.
    intros C D OQ Hq g e ch x s past E U Fi He. destruct (eval_done P Q bs o_size o_align C D OQ Hq _ g e ch x s past E U Fi He) as (sel & H1 & H2 & _).
    exists sel. split; [exact H1|]. intros all n. fold all in H2.
    destruct (H2 n _ (bool_worth (together all))) as (r & Hr & Er). exists r. split; [exact Hr|]. rewrite Er.
    unfold bases, all, stories. cbn [map]. rewrite !gathered_together, existsb_exists. unfold same. split; [intros (b & I & ->); exact I|intros I; exists true; auto].
  Qed.
  Lemma C65_StatOnce_proof : bs_contract bs -> distinct_vtables P -> lawful_ord (q_cmp Q) -> flags_eq (Q := Q) ->
    forall (A : Type) (g : game P Q) e ch x s past (E : VS s = statOnce A),
    set_up bs o_size o_align g -> fits s -> w_entities (j_world (g_querier g)) e = Some ch ->
    exists sel, Forall2 (chosen s x) (logs_for g e (or_nil ch)) sel /\
    let all := map (seen_as E) (stories g s sel) in
    forall n, exists r, fst (run (client (g_querier g) (S n) (p_query_eval e x s)) (after (g_querier g) past [])) = Done (Some r) /\
      result_as E r = once_spec (flat_map (@sets (statOnce A) A same same) all).
  Proof.
    intros C D OQ Hq A g e ch x s past E U Fi He. destruct (eval_done P Q bs o_size o_align C D OQ Hq _ g e ch x s past E U Fi He) as (sel & H1 & H2 & _).
    exists sel. split; [exact H1|]. intros all n. fold all in H2.
    destruct (H2 n _ (once_worth A (together all))) as (r & Hr & Er). exists r. split; [exact Hr|]. rewrite Er.
    unfold sets, all, stories. cbn [map]. rewrite !gathered_together. reflexivity.
  Qed.
  Lemma C65_Prioritized_proof : bs_contract bs -> distinct_vtables P -> lawful_ord (q_cmp Q) -> flags_eq (Q := Q) ->
    forall (A : Type) (d : A) (last : bool) (g : game P Q) e ch x s past (E : VS s = prioritized A d last),
    set_up bs o_size o_align g -> fits s -> w_entities (j_world (g_querier g)) e = Some ch ->
    exists sel (first : prio A) (others : list (prio A)), Forall2 (chosen s x) (logs_for g e (or_nil ch)) sel /\
    Forall2 (fun (h : history (prioritized A d last)) (v : prio A) => value_of h = Done v) (map (seen_as E) (stories g s sel)) (first :: others) /\
    forall n, exists r, fst (run (client (g_querier g) (S n) (p_query_eval e x s)) (after (g_querier g) past [])) = Done (Some r) /\
      result_as E r = match last_above last (p_priority first) others with Some a => a | None => p_value first end.
  Proof.
    intros C D OQ Hq A d last g e ch x s past E U Fi He. destruct (eval_done P Q bs o_size o_align C D OQ Hq _ g e ch x s past E U Fi He) as (sel & H1 & H2 & _).
    assert (V : forall l : list (history (prioritized A d last)), exists vs : list (prio A), Forall2 (fun (h : history (prioritized A d last)) (v : prio A) => value_of h = Done v) l vs).
    { induction l as [|h l [vs H]]; [exists []; constructor|]. destruct (prio_value A d last h) as [v Ev]. exists (v :: vs). constructor; assumption. }
    unfold stories in *. cbn [map] in *. destruct (V (map (seen_as E) (map snd (concat sel)))) as [vs Hvs].
    destruct (prio_value A d last (seen_as E (start match g_defaults g with Some l => l | None => [] end s))) as [v Ev].
    exists sel, v, vs. split; [exact H1|]. split; [constructor; assumption|]. intros n.
    destruct (prio_joined A d last _ _ v vs Ev Hvs) as (w & W & _ & Wv).
    destruct (H2 n (p_value w)) as (r & Hr & Er); [unfold worth, together; rewrite W; reflexivity|]. exists r. split; [exact Hr|]. rewrite Er. exact Wv.
  Qed.

  (** ** More is granted (C75) *)
  Lemma C75_query_StatFlags_proof : bs_contract bs -> distinct_vtables P -> lawful_ord (q_cmp Q) -> flags_eq (Q := Q) ->
    forall (G : FlagsT) (F : Type) (mem : gcar G -> F -> Prop), lawful_flags G F mem ->
    forall (g g' : game P Q) e e' ch ch' x s past past' (E : VS s = statFlags G),
    set_up bs o_size o_align g -> set_up bs o_size o_align g' -> fits s ->
    w_entities (j_world (g_querier g)) e = Some ch -> w_entities (j_world (g_querier g')) e' = Some ch' ->
    exists sel sel', Forall2 (chosen s x) (logs_for g e (or_nil ch)) sel /\ Forall2 (chosen s x) (logs_for g' e' (or_nil ch')) sel' /\
    let all := map (seen_as E) (stories g s sel) in let all' := map (seen_as E) (stories g' s sel') in
    forall f, (any_has mem (flat_map (@sets (statFlags G) (gcar G) same same) all) f -> any_has mem (flat_map (@sets (statFlags G) (gcar G) same same) all') f) ->
    (any_has mem (flat_map (@bans (statFlags G) (gcar G) same) all') f -> any_has mem (flat_map (@bans (statFlags G) (gcar G) same) all) f) ->
    forall n n' r r', fst (run (client (g_querier g) (S n) (p_query_eval e x s)) (after (g_querier g) past [])) = Done (Some r) ->
      fst (run (client (g_querier g') (S n') (p_query_eval e' x s)) (after (g_querier g') past' [])) = Done (Some r') ->
      mem (result_as E r) f -> mem (result_as E r') f.
  Proof.
    intros C D OQ Hq G F mem L g g' e e' ch ch' x s past past' E U U' Fi He He'.
    destruct (C65_StatFlags_proof C D OQ Hq G F mem L g e ch x s past E U Fi He) as (sel & H1 & H2).
    destruct (C65_StatFlags_proof C D OQ Hq G F mem L g' e' ch' x s past' E U' Fi He') as (sel' & H1' & H2').
    exists sel, sel'. split; [exact H1|]. split; [exact H1'|]. intros all all' f A B n n' r r' Hr Hr' M.
    destruct (H2 n) as (r1 & K1 & K2), (H2' n') as (r1' & K1' & K2'). rewrite Hr in K1. rewrite Hr' in K1'. injection K1 as <-. injection K1' as <-.
    apply K2'. apply K2 in M. fold all in M. fold all'. tauto.
  Qed.
End Claims.
