(** Closed forms of queries over entities carrying maps. *)
From Coq Require Import ZArith List Bool Sorted Lia.
From Verif Require Import S_Types L_Ints.
From Verif Require Import M_Outcome M_Ints M_Ratio M_Float M_Value M_Types M_Qualifier M_Search M_Stat M_StatMap M_HashMap M_Pair M_Defaults M_Querier
  S_Ratio S_Search S_Pair S_StatMap S_Defaults S_Querier S_Totals S_EndToEnd
  L_StatMap L_QueryProofs L_Totals L_Totals2 L_EndToEnd.
Import ListNotations.
Local Open Scope Z_scope.

Lemma gathered_together {S : StatValue} {B} (f : stat_op S -> list B) (l : list (history S)) h :
  gathered f (together (h :: l)) = flat_map (gathered f) (h :: l).
Proof.
  cbn [together flat_map]. revert h. induction l as [|k l IH]; intros h; cbn [fold_left flat_map]; [symmetry; apply app_nil_r|].
  rewrite IH. cbn [gathered]. rewrite <- app_assoc. reflexivity.
Qed.
Lemma steady_together {S : StatValue} (l : list (history S)) : Forall steady l -> steady (together l).
Proof.
  destruct l as [|h l]; [intros; exact I|]. cbn [together]. intros H. inversion H; subst. clear H. revert h H2 H3.
  induction l as [|k l IH]; intros h H2 H3; [exact H2|]. cbn [fold_left]. inversion H3; subst. apply IH; [split; assumption|assumption].
Qed.
Lemma together_as {S T : StatValue} (E : S = T) (l : list (history S)) : together (map (seen_as E) l) = seen_as E (together l).
Proof. destruct E. unfold seen_as. cbn [eq_rect]. rewrite map_id. reflexivity. Qed.
Lemma worth_as {S T : StatValue} (E : S = T) (h : history S) : worth (seen_as E h) = let! r := worth h in Done (result_as E r).
Proof. destruct E. cbn. destruct (worth h); reflexivity. Qed.

Section L.
  Context {P : Prog} {Q : QFlag}.
  Notation VS s := (VT P (vt_value P (si_ty s))).
  Variable bs : list comparison -> bsres.
  Variables o_size o_align : vty P -> Z.

  Lemma eval_any : bs_contract bs -> distinct_vtables P -> lawful_ord (q_cmp Q) -> flags_eq (Q := Q) ->
    forall (g : game P Q) e ch x s past, set_up bs o_size o_align g -> fits s -> w_entities (j_world (g_querier g)) e = Some ch ->
    exists sel, Forall2 (chosen s x) (logs_for g e (or_nil ch)) sel /\
    forall n,
      fst (run (client (g_querier g) (S n) (p_query e x s)) (after (g_querier g) past [])) =
        (let! v := value_of (together (stories g s sel)) in Done (Some v)) /\
      fst (run (client (g_querier g) (S n) (p_query_eval e x s)) (after (g_querier g) past [])) =
        (let! r := worth (together (stories g s sel)) in Done (Some r)).
  Proof.
    intros C D OQ Hq g e ch x s past U F He. destruct (answer_any OQ bs C D o_size o_align g e ch x s past Hq U F He) as (sel & Hs & Hv).
    exists sel. split; [exact Hs|]. intros n. specialize (Hv n). split; [exact Hv|].
    rewrite C44_eval_proof. destruct (run (client (g_querier g) (S n) (p_query e x s)) (after (g_querier g) past [])) as [o c'].
    cbn [fst] in *. subst o. unfold worth. destruct (value_of _) as [v| | |]; reflexivity.
  Qed.

  Lemma chosen_unique (OQ : lawful_ord (q_cmp Q)) (s : inst P) (x : qquery Q) l l' hs hs' :
    (forall q, qualifies_as q x = true -> account l s q = account l' s q) -> chosen s x l hs -> chosen s x l' hs' -> hs = hs'.
  Proof.
    intros A [S1 I1] [S2 I2].
    assert (I : forall p, In p hs <-> In p hs').
    { intros [q h]. rewrite I1, I2. split; intros [H1 H2]; (split; [|exact H2]); [rewrite <- A|rewrite A]; assumption. }
    clear - OQ S1 S2 I. revert hs' S2 I. induction S1 as [|a hs S1 IH Ha]; intros hs' S2 I.
    - destruct hs' as [|b hs']; [reflexivity|]. exfalso. apply (I b). left. reflexivity.
    - destruct S2 as [|b hs' S2 Hb]; [exfalso; apply (I a); left; reflexivity|].
      assert (irr : forall q, qual_cmp (Q := Q) q q <> Lt) by (intros q; rewrite (proj2 (lo_eq _ (qual_ord Q OQ) q q) eq_refl); discriminate).
      assert (E : a = b).
      { destruct (proj1 (I a) (or_introl eq_refl)) as [E|Ia]; [auto|]. destruct (proj2 (I b) (or_introl eq_refl)) as [E|Ib]; [auto|].
        rewrite Forall_forall in Ha, Hb. exfalso. apply (irr (fst a)).
        apply (lo_trans _ (qual_ord Q OQ) _ (fst b)); [apply Ha, Ib|apply Hb, Ia]. }
      subst b. f_equal. apply IH; [exact S2|]. intros p.
      rewrite Forall_forall in Ha, Hb. split; intros H.
      + destruct (proj1 (I p) (or_intror H)) as [E|K]; [|exact K]. subst p. contradiction (irr (fst a)). apply Ha, H.
      + destruct (proj2 (I p) (or_intror H)) as [E|K]; [|exact K]. subst p. contradiction (irr (fst a)). apply Hb, H.
  Qed.
End L.

Section Claims.
  Variables (P : Prog) (Q : QFlag) (bs : list comparison -> bsres) (o_size o_align : vty P -> Z).
  Notation VS s := (VT P (vt_value P (si_ty s))).

  Lemma C65_query_proof : bs_contract bs -> distinct_vtables P -> lawful_ord (q_cmp Q) -> flags_eq (Q := Q) ->
    forall (g : game P Q) e ch x s past, set_up bs o_size o_align g -> fits s -> w_entities (j_world (g_querier g)) e = Some ch ->
    exists sel, Forall2 (chosen s x) (logs_for g e (or_nil ch)) sel /\
    forall n,
      fst (run (client (g_querier g) (S n) (p_query e x s)) (after (g_querier g) past [])) =
        (let! v := value_of (together (stories g s sel)) in Done (Some v)) /\
      fst (run (client (g_querier g) (S n) (p_query_eval e x s)) (after (g_querier g) past [])) =
        (let! r := worth (together (stories g s sel)) in Done (Some r)).
  Proof. exact (eval_any bs o_size o_align). Qed.

  Lemma C65_depends_only_proof : bs_contract bs -> distinct_vtables P -> lawful_ord (q_cmp Q) -> flags_eq (Q := Q) ->
    forall (g g' : game P Q) e e' ch ch' x s past past' n n',
    set_up bs o_size o_align g -> set_up bs o_size o_align g' -> fits s ->
    w_entities (j_world (g_querier g)) e = Some ch -> w_entities (j_world (g_querier g')) e' = Some ch' ->
    start (match g_defaults g with Some l => l | None => [] end) s = start (match g_defaults g' with Some l => l | None => [] end) s ->
    Forall2 (fun l l' => forall q, qualifies_as q x = true -> account l s q = account l' s q) (logs_for g e (or_nil ch)) (logs_for g' e' (or_nil ch')) ->
    fst (run (client (g_querier g) (S n) (p_query e x s)) (after (g_querier g) past [])) =
    fst (run (client (g_querier g') (S n') (p_query e' x s)) (after (g_querier g') past' [])).
  Proof.
    intros C D OQ Hq g g' e e' ch ch' x s past past' n n' U U' F He He' Ed Hl.
    destruct (eval_any bs o_size o_align C D OQ Hq g e ch x s past U F He) as (sel & H1 & H2).
    destruct (eval_any bs o_size o_align C D OQ Hq g' e' ch' x s past' U' F He') as (sel' & H1' & H2').
    rewrite (proj1 (H2 n)), (proj1 (H2' n')).
    assert (Es : sel = sel').
    { clear - OQ Hl H1 H1'. revert sel sel' H1 H1'. induction Hl as [|l l' ll ll' Hl _ IH]; intros sel sel' H1 H1'; inversion H1; inversion H1'; subst; [reflexivity|].
      f_equal; [eapply (chosen_unique OQ); eassumption|apply IH; assumption]. }
    subst sel'. unfold stories. rewrite Ed. reflexivity.
  Qed.

  Section Kind.
    Hypothesis C : bs_contract bs.
    Hypothesis D : distinct_vtables P.
    Hypothesis OQ : lawful_ord (q_cmp Q).
    Hypothesis Hq : flags_eq (Q := Q).
    (** The result of an evaluating query is the worth of the stories, seen at a known type. *)
    Lemma eval_as (T : StatValue) (g : game P Q) e ch x s past (E : VS s = T) : set_up bs o_size o_align g -> fits s -> w_entities (j_world (g_querier g)) e = Some ch ->
      exists sel, Forall2 (chosen s x) (logs_for g e (or_nil ch)) sel /\
      forall n,
        (let! r := fst (run (client (g_querier g) (S n) (p_query_eval e x s)) (after (g_querier g) past [])) in Done (option_map (result_as E) r)) =
        (let! r := worth (together (map (seen_as E) (stories g s sel))) in Done (Some r)).
    Proof.
      intros U F He. destruct (eval_any bs o_size o_align C D OQ Hq g e ch x s past U F He) as (sel & H1 & H2). exists sel. split; [exact H1|].
      intros n. rewrite (proj2 (H2 n)), together_as, worth_as. destruct (worth _); reflexivity.
    Qed.
  End Kind.

  Lemma C65_StatInt_checked_proof : bs_contract bs -> distinct_vtables P -> lawful_ord (q_cmp Q) -> flags_eq (Q := Q) ->
    forall (g : game P Q) e ch x s past t (E : VS s = statInt true (prim t)),
    set_up bs o_size o_align g -> fits s -> w_entities (j_world (g_querier g)) e = Some ch ->
    exists sel, Forall2 (chosen s x) (logs_for g e (or_nil ch)) sel /\
    let all := map (seen_as E) (stories g s sel) in
    forall n r, fst (run (client (g_querier g) (S n) (p_query_eval e x s)) (after (g_querier g) past [])) = Done (Some r) ->
      result_as E r = bounded t (all_floors all same) (all_ceilings all same) (sum (all_gains all same same) * product (all_factors all same)).
  Proof.
    intros C D OQ Hq g e ch x s past t E U F He. destruct (eval_as C D OQ Hq _ g e ch x s past E U F He) as (sel & H1 & H2).
    exists sel. split; [exact H1|]. intros all n r Hr. specialize (H2 n). rewrite Hr in H2. cbn [obind option_map] in H2. fold all in H2.
    destruct (worth (together all)) as [w| | |] eqn:Ew; cbn [obind] in H2; try discriminate. injection H2 as ->.
    rewrite (C58_StatInt_checked_proof t _ _ Ew). unfold floors, ceilings, gains, factors, all, stories. cbn [map]. rewrite !gathered_together. reflexivity.
  Qed.
  Lemma C65_StatInt_fits_proof : bs_contract bs -> distinct_vtables P -> lawful_ord (q_cmp Q) -> flags_eq (Q := Q) ->
    forall (g : game P Q) e ch x s past oc T (E : VS s = statInt oc T),
    set_up bs o_size o_align g -> fits s -> w_entities (j_world (g_querier g)) e = Some ch ->
    exists sel, Forall2 (chosen s x) (logs_for g e (or_nil ch)) sel /\
    let all := map (seen_as E) (stories g s sel) in
    Forall steady all -> Forall (z_ok T) (all_gains all same same) -> Forall (z_ok T) (all_factors all same) ->
    room (all_gains all same same) <= imax (i_ty T) -> room_mul (all_factors all same) <= imax (i_ty T) ->
    z_ok T (sum (all_gains all same same) * product (all_factors all same)) ->
    forall n, exists r, fst (run (client (g_querier g) (S n) (p_query_eval e x s)) (after (g_querier g) past [])) = Done (Some r) /\
      result_as E r = bounded (i_ty T) (all_floors all same) (all_ceilings all same) (sum (all_gains all same same) * product (all_factors all same)).
  Proof.
    intros C D OQ Hq g e ch x s past oc T E U F He. destruct (eval_as C D OQ Hq _ g e ch x s past E U F He) as (sel & H1 & H2).
    exists sel. split; [exact H1|]. intros all Hst G1 G2 R1 R2 Hz n. specialize (H2 n). fold all in H2.
    assert (W : worth (together all) = Done (bounded (i_ty T) (all_floors all same) (all_ceilings all same) (sum (all_gains all same same) * product (all_factors all same)))).
    { rewrite C58_StatInt_fits_proof; [|..];
      unfold floors, ceilings, gains, factors, all, stories in *; cbn [map] in *; rewrite ?gathered_together; try assumption; try reflexivity.
      apply steady_together. exact Hst. }
    rewrite W in H2. cbn [obind] in H2.
    destruct (fst (run (client (g_querier g) (S n) (p_query_eval e x s)) (after (g_querier g) past []))) as [[r|]| | |]; cbn [obind option_map] in H2; try discriminate.
    exists r. split; [reflexivity|]. injection H2 as H2. exact H2.
  Qed.
  Lemma C65_StatIntPercentAdditive_checked_proof : bs_contract bs -> distinct_vtables P -> lawful_ord (q_cmp Q) -> flags_eq (Q := Q) ->
    forall (g : game P Q) e ch x s past t R scale z (E : VS s = statPctAdd true (prim t) R scale),
    set_up bs o_size o_align g -> fits s -> w_entities (j_world (g_querier g)) e = Some ch -> from_i64 t scale = Done z -> 0 < z ->
    exists sel, Forall2 (chosen s x) (logs_for g e (or_nil ch)) sel /\
    let all := map (seen_as E) (stories g s sel) in
    forall n r, fst (run (client (g_querier g) (S n) (p_query_eval e x s)) (after (g_querier g) past [])) = Done (Some r) ->
      exists y, rounds_to R (sum (all_gains all same same) * (z + sum (all_factors all same))) z y /\
        result_as E r = bounded t (all_floors all same) (all_ceilings all same) y.
  Proof.
    intros C D OQ Hq g e ch x s past t R scale z E U F He Hz Pz. destruct (eval_as C D OQ Hq _ g e ch x s past E U F He) as (sel & H1 & H2).
    exists sel. split; [exact H1|]. intros all n r Hr. specialize (H2 n). rewrite Hr in H2. cbn [obind option_map] in H2. fold all in H2.
    destruct (worth (together all)) as [w| | |] eqn:Ew; cbn [obind] in H2; try discriminate. injection H2 as ->.
    destruct (C58_StatIntPercentAdditive_checked_proof t R scale z _ _ Hz Pz Ew) as (y & Hy & Hb). exists y.
    unfold floors, ceilings, gains, factors, all_floors, all_ceilings, all_gains, all_factors, all, stories in *. cbn [map] in *. rewrite !gathered_together in *. split; assumption.
  Qed.
  Lemma C65_StatIntFraction_checked_proof : bs_contract bs -> distinct_vtables P -> lawful_ord (q_cmp Q) -> flags_eq (Q := Q) ->
    forall (g : game P Q) e ch x s past t R (E : VS s = statIntFraction true (prim t) R),
    set_up bs o_size o_align g -> fits s -> w_entities (j_world (g_querier g)) e = Some ch ->
    exists sel, Forall2 (chosen s x) (logs_for g e (or_nil ch)) sel /\
    let all := map (seen_as E) (stories g s sel) in
    Forall (ity_ok t) (all_gains all same same) -> Forall (reduced t) (all_factors all same) ->
    forall n r, fst (run (client (g_querier g) (S n) (p_query_eval e x s)) (after (g_querier g) past [])) = Done (Some r) ->
      exists y, rounds_to R (sum (all_gains all same same) * over (all_factors all same)) (under (all_factors all same)) y /\
        result_as E r = bounded t (all_floors all same) (all_ceilings all same) y.
  Proof.
    intros C D OQ Hq g e ch x s past t R E U F He. destruct (eval_as C D OQ Hq _ g e ch x s past E U F He) as (sel & H1 & H2).
    exists sel. split; [exact H1|]. intros all G1 G2 n r Hr. specialize (H2 n). rewrite Hr in H2. cbn [obind option_map] in H2. fold all in H2.
    destruct (worth (together all)) as [w| | |] eqn:Ew; cbn [obind] in H2; try discriminate. injection H2 as ->.
    destruct (C58_StatIntFraction_checked_proof t R (together all) w) as (y & Hy & Hb);
      unfold floors, ceilings, gains, factors, all_floors, all_ceilings, all_gains, all_factors, all, stories in *; cbn [map] in *; rewrite ?gathered_together in *; try assumption.
    exists y. split; assumption.
  Qed.
End Claims.
