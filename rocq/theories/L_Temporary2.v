(** Temporary modifiers in the logs of a game. *)
From Coq Require Import ZArith List Bool Relations Lia.
From Verif Require Import M_Outcome M_Value M_Qualifier M_Search M_Stat M_StatMap M_HashMap M_Pair M_Registry M_Defaults M_Querier
  S_Search S_StatMap S_Pair S_Defaults S_Defaults2 S_Querier S_Totals S_EndToEnd S_Demo S_Temporary
  L_StatMap L_StatMap2 L_StatMap3 L_StatMap4 L_StatMap5 L_StatMapProofs L_Unwind L_EndToEnd L_EndToEnd2 L_Temporary.
Import ListNotations.

Section L.
  Context {P : Prog} {Q : QFlag}.
  Hypothesis OQ : lawful_ord (q_cmp Q).

  (** Ledgers that agree wherever [A] says so. *)
  Definition agree (A : inst P -> qualifier Q -> Prop) (L L' : ledger P Q) : Prop := forall s q, A s q -> L s q = L' s q.
  Lemma set_agree (A : inst P -> qualifier Q -> Prop) L L' s q o o' : agree A L L' -> (A s q -> o = o') -> agree A (set_entry L s q o) (set_entry L' s q o').
  Proof.
    intros H E s' q' Ha. destruct (key_dec OQ s' s q' q) as [Ek|Nk].
    - injection Ek as -> ->. rewrite !(set_same OQ). apply E, Ha.
    - rewrite !(set_other OQ) by exact Nk. apply H, Ha.
  Qed.
  Lemma placed_agree A U (k : list (bulk_item U)) : forall L L' : ledger P Q, agree A L L' -> agree A (fold_left placed k L) (fold_left placed k L').
  Proof. induction k as [|p k IH]; intros L L' H; [exact H|]. cbn [fold_left]. apply IH. apply set_agree; [exact H|reflexivity]. Qed.
  Lemma edited_agree A L L' e : agree A L L' -> agree A (edited L e) (edited L' e).
  Proof.
    intros H. destruct e as [q s h v|q s b|q s o|q s l|q s|q s l|s f|s| |U k]; cbn [edited].
    - apply set_agree; [exact H|reflexivity].
    - apply set_agree; [exact H|reflexivity].
    - apply set_agree; [exact H|]. intros Ha. rewrite (H _ _ Ha). reflexivity.
    - apply set_agree; [exact H|]. intros Ha. rewrite (H _ _ Ha). reflexivity.
    - apply set_agree; [exact H|reflexivity].
    - apply set_agree; [exact H|]. intros Ha. rewrite (H _ _ Ha). reflexivity.
    - intros s' q' Ha. destruct (stat_dec s s'); rewrite (H _ _ Ha); reflexivity.
    - intros s' q' Ha. destruct (stat_dec s s'); [reflexivity|apply H, Ha].
    - intros s' q' _. reflexivity.
    - apply placed_agree, H.
  Qed.
  Lemma edits_agree A l : forall L L' : ledger P Q, agree A L L' -> agree A (fold_left edited l L) (fold_left edited l L').
  Proof. induction l as [|e l IH]; intros L L' H; [exact H|]. cbn [fold_left]. apply IH, edited_agree, H. Qed.

  Section Key.
    Variables (q : qualifier Q) (s : inst P).
    Lemma edited_none L e : ~ places q s (method e) -> L s q = None -> edited L e s q = None.
    Proof.
      intros NP H. destruct e as [q1 s1 h v|q1 s1 b|q1 s1 o|q1 s1 l|q1 s1|q1 s1 l|s1 f|s1| |U k]; cbn [edited method] in *.
      - rewrite (set_other OQ); [exact H|]. intros E. apply NP. left. cbn. injection E. auto.
      - rewrite (set_other OQ); [exact H|]. intros E. apply NP. left. cbn. injection E. auto.
      - rewrite (set_other OQ); [exact H|]. intros E. apply NP. left. cbn. injection E. auto.
      - destruct (key_dec OQ s s1 q q1) as [Ek|Nk]; [|rewrite (set_other OQ) by exact Nk; exact H]. injection Ek as <- <-. rewrite (set_same OQ), H. reflexivity.
      - destruct (key_dec OQ s s1 q q1) as [Ek|Nk]; [|rewrite (set_other OQ) by exact Nk; exact H]. injection Ek as <- <-. rewrite (set_same OQ). reflexivity.
      - rewrite (set_other OQ); [exact H|]. intros E. apply NP. left. cbn. injection E. auto.
      - destruct (stat_dec s1 s); rewrite H; reflexivity.
      - destruct (stat_dec s1 s); [reflexivity|exact H].
      - reflexivity.
      - assert (NI : forall p, In p k -> (s, q) <> (Inst U (snd (fst p)), fst (fst p))).
        { intros p Hp E. apply NP. right. exists (snd (fst p)), (snd (snd p)). injection E as E1 E2. split; [|exact E1].
          apply in_map_iff. exists p. split; [|exact Hp]. destruct p as [[a b] c]. cbn in *. subst. reflexivity. }
        clear NP. revert L H NI. induction k as [|p k IH]; intros L H NI; [exact H|]. cbn [fold_left]. apply IH; [|intros p' Hp'; apply NI; right; exact Hp'].
        unfold placed. rewrite (set_other OQ); [exact H|]. apply NI. left. reflexivity.
    Qed.
    Lemma edits_none l : forall L : ledger P Q, Forall (fun e => ~ places q s (method e)) l -> L s q = None -> fold_left edited l L s q = None.
    Proof.
      induction l as [|e l IH]; intros L NP H; [exact H|]. inversion NP as [|? ? N1 N2]; subst. cbn [fold_left]. apply IH; [exact N2|apply edited_none; assumption].
    Qed.
    Lemma granted_off L e : grants q s (method e) -> agree (fun s' q' => (s', q') <> (s, q)) L (edited L e).
    Proof.
      intros G. destruct e; cbn [method grants] in G; try contradiction; destruct G as [-> ->]; cbn [edited]; intros s' q' N; rewrite (set_other OQ) by exact N; reflexivity.
    Qed.
  End Key.

  Lemma while_account (l l' : list (edit P Q)) : for_a_while l l' -> forall s q, account l s q = account l' s q.
  Proof.
    intros (q & s & e & l1 & l2 & l3 & -> & -> & G & H & NP) s' q'. unfold account in *. rewrite !fold_left_app. cbn [fold_left]. rewrite fold_left_app. cbn [fold_left].
    apply (edits_agree (fun _ _ => True)); [|exact Logic.I]. set (L1 := fold_left edited l1 (fun _ _ => None)) in *. clear s' q'. intros s' q' _.
    cbn [edited]. destruct (key_dec OQ s' s q' q) as [Ek|Nk].
    - injection Ek as -> ->. rewrite (set_same OQ). apply edits_none; assumption.
    - rewrite (set_other OQ) by exact Nk. apply (edits_agree (fun s' q' => (s', q') <> (s, q))); [apply granted_off, G|exact Nk].
  Qed.
  Lemma temporaries_account (l l' : list (edit P Q)) : with_temporaries l l' -> forall s q, account l s q = account l' s q.
  Proof.
    intros H. induction H as [l l' H|l|l l' l'' _ IH1 _ IH2]; intros s q; [apply while_account, H|reflexivity|]. rewrite IH1. apply IH2.
  Qed.
End L.

Lemma C78_same_answers_proof :
  forall (P : Prog) (Q : QFlag) (bs : list comparison -> bsres) (o_size o_align : vty P -> Z),
  bs_contract bs -> distinct_vtables P -> lawful_ord (q_cmp Q) -> flags_eq (Q := Q) ->
  forall (g g' : game P Q) e ch x s past past' n n',
  set_up bs o_size o_align g -> set_up bs o_size o_align g' -> g_defaults g' = g_defaults g ->
  Forall2 with_temporaries (logs_for g e (or_nil ch)) (logs_for g' e (or_nil ch)) ->
  fits s -> w_entities (j_world (g_querier g)) e = Some ch -> w_entities (j_world (g_querier g')) e = Some ch ->
  fst (run (client (g_querier g') (S n') (p_query e x s)) (after (g_querier g') past' [])) =
  fst (run (client (g_querier g) (S n) (p_query e x s)) (after (g_querier g) past [])).
Proof.
  intros P Q bs o_size o_align HB D OQ F g g' e ch x s past past' n n' U U' E1 E2 Fi W W'. symmetry.
  apply (C65_depends_only_proof P Q bs o_size o_align HB D OQ F g g' e e ch ch x s past past' n n');
    [exact U|exact U'|exact Fi|exact W|exact W'|rewrite E1; reflexivity|].
  clear - E2 OQ. induction E2 as [|l l' k k' Hl _ IH]; constructor; [|exact IH]. intros q _. apply (temporaries_account OQ), Hl.
Qed.

Local Open Scope Z_scope.
Lemma C78_shared_key_refuted_proof :
  exists (o : mop demo intQ) l2, grants fire hp o /\ runs (o :: l2 ++ [MRemove fire hp]) = true /\ runs l2 = true /\
  eval_hp (demo_run (o :: l2)) (@Aggregate intQ 1) = Done 8%Z /\
  eval_hp (demo_run (o :: l2 ++ [MRemove fire hp])) (@Aggregate intQ 1) = Done 0%Z /\ eval_hp (demo_run l2) (@Aggregate intQ 1) = Done 3%Z.
Proof. exists (add_num fire 5), [add_num fire 3]. split; [split; reflexivity|]. vm_compute. repeat split. Qed.
