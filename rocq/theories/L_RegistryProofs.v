From Coq Require Import ZArith List Bool String.
From Verif Require Import M_Outcome M_Value M_Stat M_HashMap M_Registry S_StatMap S_Demo S_Registry L_HashMap L_Demo L_Registry.
Import ListNotations.
Local Open Scope Z_scope.

Lemma C37_register_resolves_proof :
  forall (P : Prog) (N : StatNames P), distinct_vtables P ->
  forall (m m' : registry P) T, register N m T = (m', Done tt) ->
  (forall s n, si_ty s = T -> named N n s -> reg_get m' n = Some s) /\
  (forall n s, reg_get m n = Some s -> reg_get m' n = Some s) /\
  (forall n, (forall i, ~ In (n, i) (sn_values N T)) -> reg_get m' n = reg_get m n).
Proof.
  intros P N D m m' T H. assert (m' = fst (register N m T)) as -> by (rewrite H; reflexivity). split; [|split].
  - intros s n <- Hn. rewrite <- (inst_eta s) at 2. apply (reg_each_resolves D).
    + fold (register N m (si_ty s)). rewrite H. reflexivity.
    + exact Hn.
  - intros n s. apply (reg_each_keeps D).
  - intros n. apply (reg_each_names D).
Qed.

Lemma C37_register_again_proof :
  forall (P : Prog) (N : StatNames P), distinct_vtables P ->
  forall (m m' : registry P) T, register N m T = (m', Done tt) -> register N m' T = (m', Done tt).
Proof.
  intros P N D m m' T H. apply (reg_each_same D). intros n i Hi.
  destruct (C37_register_resolves_proof P N D m m' T H) as [A _]. exact (A (Inst T i) n eq_refl Hi).
Qed.

Lemma C37_register_panics_exactly_proof :
  forall (P : Prog) (N : StatNames P), distinct_vtables P ->
  forall (m : registry P) T,
  (snd (register N m T) = Done tt <-> no_clash N (reg_get m) T /\ names_distinct N T) /\
  (snd (register N m T) = Done tt \/ snd (register N m T) = Panics PDuplicate).
Proof. intros P N D m T. split; [apply (reg_each_iff D)|apply (reg_each_end D)]. Qed.

Lemma C37_register_panics_on_clash_proof :
  forall (P : Prog) (N : StatNames P), distinct_vtables P ->
  forall (m : registry P) T, names_distinct N T ->
  (snd (register N m T) = Panics PDuplicate <->
   exists n i s, In (n, i) (sn_values N T) /\ reg_get m n = Some s /\ s <> Inst T i).
Proof.
  intros P N D m T F. destruct (C37_register_panics_exactly_proof P N D m T) as [A B]. split.
  - intros H. destruct (existsb (fun p => match reg_get m (fst p) with Some s => if inst_dec s (Inst T (snd p)) then false else true | None => false end) (sn_values N T)) eqn:E.
    + apply existsb_exists in E. destruct E as ([n i] & I & E). cbn in E.
      destruct (reg_get m n) as [s|] eqn:G; [|discriminate]. exists n, i, s.
      destruct (inst_dec s (Inst T i)); [discriminate|]. auto.
    + exfalso. assert (K : snd (register N m T) = Done tt); [|congruence]. apply A. split; [|exact F].
      intros n i s Hi Hs. destruct (inst_dec s (Inst T i)) as [|C]; [assumption|]. exfalso.
      enough (existsb (fun p => match reg_get m (fst p) with Some s => if inst_dec s (Inst T (snd p)) then false else true | None => false end) (sn_values N T) = true) by congruence.
      apply existsb_exists. exists (n, i). split; [assumption|]. cbn. rewrite Hs. destruct (inst_dec s (Inst T i)); [contradiction|reflexivity].
  - intros (n & i & s & H1 & H2 & H3). destruct B as [B|B]; [|exact B]. apply A in B. destruct B as [B _]. destruct H3. apply (B n i s H1 H2).
Qed.

Lemma C37_register_panics_only_on_earlier_refuted_proof :
  exists (P : Prog) (N : StatNames P) T, distinct_vtables P /\ snd (register N [] T) = Panics PDuplicate.
Proof. exists demo, demoN, Alive. split; [exact L_Demo.demo_distinct|reflexivity]. Qed.

Lemma C37_register_panic_state_proof :
  forall (P : Prog) (N : StatNames P), distinct_vtables P ->
  forall (m : registry P) T n s,
  (reg_get m n = Some s -> reg_get (fst (register N m T)) n = Some s) /\
  (reg_get (fst (register N m T)) n = Some s -> reg_get m n = Some s \/ si_ty s = T /\ named N n s).
Proof.
  intros P N D m T n s. split; [apply (reg_each_keeps D)|]. intros H.
  destruct (reg_each_new D _ _ _ _ _ H) as [A|(i & A & ->)]; [auto|]. right. split; [reflexivity|exact A].
Qed.

Lemma C37_replace_binds_proof :
  forall (P : Prog) (N : StatNames P) (m : registry P) T,
  (forall n i, In (n, i) (sn_values N T) ->
     exists s, reg_get (register_replace N m T) n = Some s /\ si_ty s = T /\ named N n s) /\
  (names_distinct N T ->
     forall n i, In (n, i) (sn_values N T) -> reg_get (register_replace N m T) n = Some (Inst T i)) /\
  (forall n, (forall i, ~ In (n, i) (sn_values N T)) -> reg_get (register_replace N m T) n = reg_get m n).
Proof.
  intros P N m T.
  assert (R : forall n i, In (n, i) (sn_values N T) -> exists i, In (n, i) (sn_values N T) /\ reg_get (register_replace N m T) n = Some (Inst T i)).
  { intros n i Hi. apply (proj2 (replace_get T (sn_values N T) m n)). exists i. exact Hi. }
  split; [|split].
  - intros n i Hi. destruct (R n i Hi) as (j & A & B). exists (Inst T j). split; [exact B|]. split; [reflexivity|exact A].
  - intros F n i Hi. destruct (R n i Hi) as (j & A & B). rewrite (F n i j Hi A). exact B.
  - intros n. apply (proj1 (replace_get T (sn_values N T) m n)).
Qed.

Lemma C37_history_sound_proof :
  forall (P : Prog) (N : StatNames P), distinct_vtables P ->
  forall (l : list (rop P)) n s, reg_get (rops_run N l) n = Some s ->
  named N n s /\ exists o, In o l /\ called o = si_ty s.
Proof.
  intros P N D l n s H. destruct (rops_new N D l [] n s H) as [A|(o & A & B & C)]; [discriminate|].
  split; [exact C|]. exists o. auto.
Qed.

Lemma C37_history_resolves_proof :
  forall (P : Prog) (N : StatNames P), distinct_vtables P ->
  forall (l1 l2 : list (rop P)) T n i,
  snd (register N (rops_run N l1) T) = Done tt -> In (n, i) (sn_values N T) ->
  (forall U j, In (RReplace U) l2 -> ~ In (n, j) (sn_values N U)) ->
  reg_get (rops_run N (l1 ++ RRegister T :: l2)) n = Some (Inst T i).
Proof.
  intros P N D l1 l2 T n i H Hi F. rewrite rops_app. cbn [fold_left rop_run].
  apply (rops_keep N D); [intros U HU j; apply F, HU|]. apply (reg_each_resolves D); assumption.
Qed.
