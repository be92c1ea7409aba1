(** Evaluated queries, and soundness on well typed pairs. *)
From Coq Require Import ZArith List Bool String Lia PeanoNat Permutation.
From Verif Require Import M_Outcome M_Value M_Qualifier M_Stat M_HashMap M_Pair M_Defaults M_Querier S_Pair S_StatMap S_Querier L_StatMap3 L_HashMap L_Defaults L_Querier L_Querier2 L_Querier3 L_Querier4.
Import ListNotations.

Section L.
  Context {P : Prog} {Q : QFlag}.
  Notation qq := (qquery Q).
  Notation PR := (prog P Q).
  Notation tyof s := (vt_value P (si_ty s)).
  Notation handler := (forall r : request P Q, outcome (raw r)).
  Implicit Types j : joined P Q.

  Lemma run_pbind cached (ha : forall r, act P Q (raw r)) {A B} (p : PR A) (f : A -> PR B) : forall c,
    run (interp cached ha (pbind p f)) c =
    match run (interp cached ha p) c with
    | (Done a, c') => run (interp cached ha (f a)) c'
    | (Panics q, c') => (Panics q, c') | (UB, c') => (UB, c') | (NoFuel, c') => (NoFuel, c')
    end.
  Proof.
    induction p as [a|o|r k IH|k IH]; intros c; cbn [pbind interp].
    - reflexivity.
    - cbn. destruct o as [[]| | |]; reflexivity.
    - rewrite !run_abind, !run_outcome. destruct (check r); try reflexivity. rewrite !run_abind. destruct (run (ha r) c) as [[o| | |] c1]; try reflexivity.
      rewrite !run_abind, !run_outcome. destruct (typed r o) as [v| | |]; try reflexivity. apply IH.
    - destruct cached; cbn [run]; apply IH.
  Qed.
  Lemma run_of_outcome cached (ha : forall r, act P Q (raw r)) {A} (o : outcome A) c : run (interp cached ha (of_outcome o)) c = (o, c).
  Proof. destruct o; reflexivity. Qed.
  Lemma run_eval_of cached (ha : forall r, act P Q (raw r)) s (o : option (val (VT P (tyof s)))) c :
    run (interp cached ha (p_eval_of P Q s o)) c =
    (match o with None => Done None | Some v => let! r := sv_eval _ v in Done (Some r) end, c).
  Proof. destruct o as [v|]; [|reflexivity]. unfold p_eval_of. rewrite run_pbind, run_of_outcome. destruct (sv_eval _ v); reflexivity. Qed.
  Lemma run_query_eval j n e x s c :
    run (client j n (p_query_eval e x s)) c =
    let (o, c') := run (client j n (p_query e x s)) c in
    (let! v := o in match v with None => Done None | Some v => let! r := sv_eval _ v in Done (Some r) end, c').
  Proof.
    unfold client, p_query_eval. rewrite run_pbind, run_of_outcome.
    destruct (validate_ty P (tyof s)) as [[]| | |] eqn:Ev.
    2,3,4: unfold p_query; cbn [interp]; rewrite run_abind, run_outcome; cbn [check]; rewrite Ev; reflexivity.
    rewrite run_pbind. destruct (run (interp (j_cached j) (level j n) (p_query e x s)) c) as [[o| | |] c1]; try reflexivity. apply run_eval_of.
  Qed.
  Lemma run_relation_eval j n f t x s c :
    run (client j n (p_relation_eval f t x s)) c =
    let (o, c') := run (client j n (p_relation f t x s)) c in
    (let! v := o in match v with None => Done None | Some v => let! r := sv_eval _ v in Done (Some r) end, c').
  Proof.
    unfold client, p_relation_eval. rewrite run_pbind, run_of_outcome.
    destruct (validate_ty P (tyof s)) as [[]| | |] eqn:Ev.
    2,3,4: unfold p_relation; cbn [interp]; rewrite run_abind, run_outcome; cbn [check]; rewrite Ev; reflexivity.
    rewrite run_pbind. destruct (run (interp (j_cached j) (level j n) (p_relation f t x s)) c) as [[o| | |] c1]; try reflexivity. apply run_eval_of.
  Qed.

  (** ** Undefined behaviour, when code is only assumed sound on well typed pairs *)
  Lemma collect_no_ub (h : handler) l : (forall r, good_answer r (h r)) ->
    (forall f, In f l -> keeps f /\ forall p, pair_ok p -> stops (fun o => o <> UB) (f p)) ->
    forall p, pair_ok p -> collect h p l <> UB.
  Proof.
    intros Hh. induction l as [|f l IH]; intros Hl p Hp; [discriminate|]. unfold collect. cbn [ofold].
    destruct (Hl f (or_introl eq_refl)) as [Hk Hs]. pose proof (oeval_no_ub h (f p) Hh (Hs p Hp)) as Hu.
    destruct (oeval h (f p)) as [p'| | |] eqn:E; cbn [obind]; try congruence.
    apply IH; [intros g Hg; apply Hl; right; exact Hg|]. apply (oeval_returns h _ _ p' (Hk p Hp) E).
  Qed.
  Lemma any_true_no_ub (h : handler) l : (forall r, good_answer r (h r)) ->
    (forall p : PR bool, In p l -> stops (fun o => o <> UB) p) -> any_true h l <> UB.
  Proof.
    intros Hh. induction l as [|p l IH]; intros Hl; [discriminate|]. cbn.
    pose proof (oeval_no_ub h p Hh (Hl p (or_introl eq_refl))) as Hu. destruct (oeval h p) as [[]| | |]; cbn [obind]; try congruence.
    apply IH. intros q Hq. apply Hl. right. exact Hq.
  Qed.
  Lemma answer_sound j : stats_kept j -> relations_kept j -> defaults_typed (j_world j) -> code_sound j -> forall n r, good_answer r (answer j n r).
  Proof.
    intros Hs Hr Hd Hc. induction n as [|n IH]; intros r.
    { split; [discriminate|]. destruct r; exact I. }
    assert (Hu : answer j (S n) r <> UB).
    { cbn [answer]. destruct r as [e x s|f t x s|e a]; cbn [answer1].
      - destruct (w_entities (j_world j) e) as [ch|]; [|discriminate]. pose proof (initial_ub _ s Hd) as Hi.
        destruct (initial (j_world j) s) as [b| | |] eqn:E0; cbn [obind]; try congruence.
        assert (Hc' : collect (answer j n) (Pair s b) (stat_sources j e ch x) <> UB).
        { apply (collect_no_ub _ _ IH).
          - intros f Hf. split; [apply (Hs e ch x f Hf)|]. intros p Hp. apply (sound_stat _ Hc e ch x f p Hf Hp).
          - apply (initial_ty _ _ _ E0). }
        destruct (collect _ _ _); cbn [obind]; congruence.
      - destruct (w_entities (j_world j) f); [|discriminate]. destruct (w_entities (j_world j) t); [|discriminate]. pose proof (initial_ub _ s Hd) as Hi.
        destruct (initial (j_world j) s) as [b| | |] eqn:E0; cbn [obind]; try congruence.
        assert (Hc' : collect (answer j n) (Pair s b) (rel_sources j f t x) <> UB).
        { apply (collect_no_ub _ _ IH).
          - intros g Hg. split; [apply (Hr f t x g Hg)|]. intros p Hp. apply (sound_rel _ Hc f t x g p Hg Hp).
          - apply (initial_ty _ _ _ E0). }
        destruct (collect _ _ _); cbn [obind]; congruence.
      - apply (any_true_no_ub _ _ IH). apply (sound_attr _ Hc). }
    split; [exact Hu|]. destruct r as [e x s|f t x s|e a]; [| |exact I].
    - destruct (answer j (S n) (RStat e x s)) as [[b|]| | |] eqn:E; try exact I. apply (answer_stat_ty j (S n) e x s b Hs E).
    - destruct (answer j (S n) (RRel f t x s)) as [[b|]| | |] eqn:E; try exact I. apply (answer_rel_ty j (S n) f t x s b Hr E).
  Qed.
  Lemma ask_sound j n {A} (p : PR A) : stats_kept j -> relations_kept j -> defaults_typed (j_world j) -> code_sound j ->
    stops (fun o => o <> UB) p -> ask j n p <> UB.
  Proof. intros Hs Hr Hd Hc Hp. apply oeval_no_ub; [|exact Hp]. apply answer_sound; assumption. Qed.
End L.
