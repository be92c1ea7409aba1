From Coq Require Import ZArith List Bool Lia PeanoNat.
From Verif Require Import M_Outcome M_Value M_Types M_Qualifier M_Stat M_HashMap M_Pair M_Defaults M_Querier M_Lock
  S_Pair S_StatMap S_Querier S_Demo S_DemoQuery S_Poison S_Lock L_Querier3 L_Querier4 L_CacheProofs.
Import ListNotations.

Section L.
  Context {P : Prog} {Q : QFlag}.
  Variables ca da : buffer P -> bool.
  Variable A : Type.
  Implicit Types t : thread P Q A.
  Implicit Types s : lstate P Q.
  Implicit Types l : list (thread P Q A).

  Definition n_of (p : thread P Q A -> bool) l : nat := length (filter p l).
  Lemma n_of_app p l1 l2 : n_of p (l1 ++ l2) = n_of p l1 + n_of p l2.
  Proof. unfold n_of. rewrite filter_app, app_length. reflexivity. Qed.
  Lemma n_of_cons p t l : n_of p (t :: l) = (if p t then 1 else 0) + n_of p l.
  Proof. unfold n_of. cbn. destruct (p t); reflexivity. Qed.
  Lemma reads_may l : n_of reads l <= n_of may_read l.
  Proof. induction l as [|t l IH]; [reflexivity|]. rewrite !n_of_cons. destruct t; cbn in *; lia. Qed.
  Lemma writes_may l : n_of writes l <= n_of may_write l.
  Proof. induction l as [|t l IH]; [reflexivity|]. rewrite !n_of_cons. destruct t; cbn in *; lia. Qed.
  Definition b2n (b : bool) : nat := if b then 1 else 0.
  Definition fresh_insert (c : cache P Q) t : Prop :=
    match t with TInsert k b c' _ => c' = fst (hput key_eqb c k b) | _ => True end.

  Record sound (z : list (thread P Q A) * lstate P Q) : Prop := {
    so_readers : l_readers (snd z) = n_of may_read (fst z);
    so_writer : b2n (l_writer (snd z)) = n_of may_write (fst z);
    so_apart : l_writer (snd z) = true -> l_readers (snd z) = 0;
    so_look : l_looking (snd z) = n_of reads (fst z);
    so_torn : b2n (l_torn (snd z)) = n_of writes (fst z);
    so_race : l_race (snd z) = false;
    so_insert : Forall (fresh_insert (l_map (snd z))) (fst z)
  }.
  Lemma no_insert c c' l : n_of may_write l = 0 -> Forall (fresh_insert c) l -> Forall (fresh_insert c') l.
  Proof.
    intros H F. induction l as [|t l IH]; constructor.
    - rewrite n_of_cons in H. destruct t; cbn in *; trivial. lia.
    - apply IH; [rewrite n_of_cons in H; lia|inversion F; assumption].
  Qed.
  Lemma b2n_0 b : b2n b = 0 -> b = false. Proof. destruct b; [discriminate|reflexivity]. Qed.

  Lemma sound_step l1 t l2 s t' s' : sound (l1 ++ t :: l2, s) -> lstep ca da t s = Some (t', s') -> sound (l1 ++ t' :: l2, s').
  Proof.
    intros [H1 H2 H3 H4 H5 H6 H7] E. destruct s as [c r w n torn race]. cbn [fst snd l_map l_readers l_writer l_looking l_torn l_race] in *.
    rewrite n_of_app, n_of_cons in H1, H2, H4, H5.
    assert (R1 := reads_may l1). assert (R2 := reads_may l2). assert (W1 := writes_may l1). assert (W2 := writes_may l2).
    apply Forall_app in H7 as [F1 F2]. apply Forall_cons_iff in F2 as [F3 F4].
    assert (K : forall t', fresh_insert c t' -> Forall (fresh_insert c) (l1 ++ t' :: l2)) by (intros; apply Forall_app; split; [|constructor]; assumption).
    destruct t as [[a|o|k f|k b f|f]|k f|o f|m|k b f|k b c0 f|f|[|b bs] f|m]; cbn in E, H1, H2, H4, H5; try discriminate E.
    all: repeat match type of E with (if ?x then _ else _) = _ => destruct x eqn:?; try discriminate E end; injection E as <- <-.
    all: try match goal with H : free _ = true |- _ => apply andb_true_iff in H as [Hw Hr]; cbn in Hw, Hr; apply negb_true_iff in Hw; apply Nat.eqb_eq in Hr; subst w end.
    all: try (assert (Htorn : torn = false) by (apply b2n_0; destruct w; cbn in *; lia); rewrite Htorn in *).
    all: try (assert (Hn : n = 0%nat) by (destruct w; cbn in *; lia); rewrite Hn in *).
    all: constructor; cbn [fst snd l_map l_readers l_writer l_looking l_torn l_race]; rewrite ?n_of_app, ?n_of_cons; cbn in *;
      try (apply K; cbn; trivial; fail); try lia; try reflexivity; try (intros; destruct w; cbn in *; try discriminate; lia).
    all: try (destruct w; cbn in *; lia).
    all: try (apply Forall_app; split; [|constructor; [exact I|]]; (eapply no_insert; [|eassumption]; destruct w; cbn in *; lia)).
    all: try (rewrite H6; reflexivity).
  Qed.
  Lemma sound_start (ms : list (act P Q A)) c : sound (map TFree ms, unlocked c).
  Proof.
    assert (H : forall p, (forall m, p (TFree m) = false) -> n_of p (map TFree ms) = 0%nat).
    { intros p Hp. induction ms as [|m l IH]; [reflexivity|]. cbn [map]. rewrite n_of_cons, Hp, IH. reflexivity. }
    constructor; cbn [fst snd l_map l_readers l_writer l_looking l_torn l_race unlocked b2n]; try reflexivity; try discriminate; try (symmetry; apply H; reflexivity). apply Forall_forall. intros t Ht. apply in_map_iff in Ht as (m & <- & _). exact I.
  Qed.
  Lemma sound_steps z z' : lsteps ca da z z' -> sound z -> sound z'.
  Proof. induction 1 as [z|l1 t l2 s t' s' z E _ IH]; intros H; [exact H|]. apply IH. eapply sound_step; eassumption. Qed.

  (** ** Each step is no step or the step of the atomic operation *)
  Lemma left_step t s t' s' : fresh_insert (l_map s) t -> lstep ca da t s = Some (t', s') ->
    (left t' = left t /\ l_map s' = l_map s) \/ astep (left t) (l_map s) = Some (left t', l_map s').
  Proof.
    intros F E. destruct s as [c r w n torn race].
    destruct t as [[a|o|k f|k b f|f]|k f|o f|m|k b f|k b c0 f|f|[|b bs] f|m]; cbn in E; try discriminate E;
    repeat match type of E with (if ?x then _ else _) = _ => destruct x eqn:?; try discriminate E end; injection E as <- <-; cbn in *;
    try (left; split; reflexivity); right; try reflexivity. rewrite F. reflexivity.
  Qed.
  Lemma refines z z' : lsteps ca da z z' -> sound z -> steps (map left (fst z), l_map (snd z)) (map left (fst z'), l_map (snd z')).
  Proof.
    induction 1 as [z|l1 t l2 s t' s' z E _ IH]; intros H; [constructor|]. specialize (IH (sound_step _ _ _ _ _ _ H E)).
    assert (F : fresh_insert (l_map s) t) by (destruct H as [_ _ _ _ _ _ F]; cbn in F; apply Forall_app in F as [_ F]; apply Forall_cons_iff in F as [F _]; exact F).
    cbn in *. rewrite map_app in *. cbn in *. destruct (left_step _ _ _ _ F E) as [[E1 E2]|E1].
    - rewrite <- E1, <- E2. exact IH.
    - eapply steps_one; eassumption.
  Qed.
  Lemma map_left_free (ms : list (act P Q A)) : map left (map TFree ms) = ms.
  Proof. rewrite map_map. cbn. apply map_id. Qed.

  (** ** Guards *)
  Lemma n_of_one p l : forall j b, nth_error l j = Some b -> p b = true -> 1 <= n_of p l.
  Proof.
    induction l as [|t l IH]; intros [|j] b H Hp; cbn in H; try discriminate; rewrite n_of_cons.
    - injection H as ->. rewrite Hp. lia.
    - specialize (IH _ _ H Hp). lia.
  Qed.
  Lemma n_of_two p l : forall i j a b, nth_error l i = Some a -> nth_error l j = Some b -> p a = true -> p b = true -> i <> j -> 2 <= n_of p l.
  Proof.
    induction l as [|t l IH]; intros [|i] [|j] a b Ha Hb Pa Pb D; cbn in Ha, Hb; try discriminate; rewrite n_of_cons.
    - contradiction.
    - injection Ha as ->. rewrite Pa. assert (H := n_of_one p l _ _ Hb Pb). lia.
    - injection Hb as ->. rewrite Pb. assert (H := n_of_one p l _ _ Ha Pa). lia.
    - assert (D2 : i <> j) by congruence. assert (H := IH i j a b Ha Hb Pa Pb D2). lia.
  Qed.
  Lemma sound_alone l s : sound (l, s) -> alone may_write may_read l.
  Proof.
    intros [H1 H2 H3 _ _ _ _] i j a b Ha Hb Pa D. cbn [fst snd] in *. assert (W := n_of_one _ _ _ _ Ha Pa). destruct (l_writer s) eqn:Ew; [|cbn [b2n] in H2; lia]. cbn [b2n] in H2. split.
    - destruct (may_write b) eqn:Pb; [|reflexivity]. assert (H := n_of_two _ _ _ _ _ _ Ha Hb Pa Pb D). lia.
    - destruct (may_read b) eqn:Pb; [|reflexivity]. assert (H := n_of_one _ _ _ _ Hb Pb). rewrite (H3 eq_refl) in H1. lia.
  Qed.

  (** ** Nobody waits for ever *)
  Lemma goes_on t s : (forall b, ca b = false) -> (forall b, da b = false) -> may_read t = true \/ may_write t = true -> exists r, lstep ca da t s = Some r.
  Proof.
    intros Hc Hd H. destruct s as [c r w n torn race].
    destruct t as [m|k f|[b|] f|m|k b f|k b c0 f|f|[|b bs] f|m]; cbn in *; rewrite ?Hc, ?Hd; eauto. destruct H; discriminate.
  Qed.
  Lemma n_of_pos p l : n_of p l <> 0 -> exists t, In t l /\ p t = true.
  Proof.
    induction l as [|t l IH]; intros H; [contradiction|]. rewrite n_of_cons in H. destruct (p t) eqn:E; [exists t; split; [left; reflexivity|exact E]|].
    destruct (IH H) as (t' & H1 & H2). exists t'. split; [right; exact H1|exact H2].
  Qed.
  Lemma some_goes_on l s : (forall b, ca b = false) -> (forall b, da b = false) -> sound (l, s) ->
    (exists t, In t l /\ ended t = false) -> exists t r, In t l /\ lstep ca da t s = Some r.
  Proof.
    intros Hc Hd [H1 H2 _ _ _ _ _] (t & Ht & He). cbn [fst snd] in *.
    destruct (l_writer s) eqn:Ew.
    - destruct (n_of_pos may_write l) as (u & Hu & Pu); [rewrite <- H2; discriminate|]. destruct (goes_on u s Hc Hd (or_intror Pu)) as [r Hr]. eauto.
    - destruct (l_readers s) as [|r] eqn:Er.
      + destruct (may_read t || may_write t) eqn:Eg.
        * apply orb_true_iff in Eg. destruct (goes_on t s Hc Hd Eg) as [r Hr]. eauto.
        * exists t. destruct s as [c r w n torn race]. cbn in Ew, Er. subst. destruct t as [[a|o|k f|k b f|f]|k f|o f|m|k b f|k b c0 f|f|bs f|m]; cbn in *; try discriminate; eauto.
      + destruct (n_of_pos may_read l) as (u & Hu & Pu); [rewrite <- H1; discriminate|]. destruct (goes_on u s Hc Hd (or_introl Pu)) as [r' Hr]. eauto.
  Qed.

  (** ** No execution is infinite *)
  Definition lstepR (l' l : list (thread P Q A)) : Prop :=
    exists l1 t l2 s t' s', l = l1 ++ t :: l2 /\ l' = l1 ++ t' :: l2 /\ lstep ca da t s = Some (t', s').
  Definition onestepR (t' t : thread P Q A) : Prop := exists s s', lstep ca da t s = Some (t', s').
  Lemma thread_acc t : Acc onestepR t.
  Proof.
    assert (UR : forall m, Acc onestepR (TFree m) -> Acc onestepR (TUnR m)).
    { intros m H. constructor. intros t' (s & s' & E). destruct s; cbn in E. injection E as <- <-. exact H. }
    assert (UW : forall m, Acc onestepR (TFree m) -> Acc onestepR (TUnW m)).
    { intros m H. constructor. intros t' (s & s' & E). destruct s; cbn in E. injection E as <- <-. exact H. }
    assert (LK : forall o f, (forall o, Acc onestepR (TFree (f o))) -> Acc onestepR (TLook o f)).
    { intros o f H. constructor. intros t' (s & s' & E). destruct s; cbn in E.
      destruct (match o with Some b => ca b | None => false end); [discriminate|]. injection E as <- <-. apply UR, H. }
    assert (RD : forall k f, (forall o, Acc onestepR (TFree (f o))) -> Acc onestepR (TRead k f)).
    { intros k f H. constructor. intros t' (s & s' & E). destruct s; cbn in E. injection E as <- <-. apply LK, H. }
    assert (IN : forall k b c f, Acc onestepR (TFree f) -> Acc onestepR (TInsert k b c f)).
    { intros k b c f H. constructor. intros t' (s & s' & E). destruct s; cbn in E. injection E as <- <-. apply UW, H. }
    assert (WR : forall k b f, Acc onestepR (TFree f) -> Acc onestepR (TWrite k b f)).
    { intros k b f H. constructor. intros t' (s & s' & E). destruct s; cbn in E. destruct (ca b); [discriminate|]. injection E as <- <-. apply IN, H. }
    assert (DR : forall bs f, Acc onestepR (TFree f) -> Acc onestepR (TDrop bs f)).
    { induction bs as [|b bs IH]; intros f H; constructor; intros t' (s & s' & E); destruct s; cbn in E.
      - injection E as <- <-. apply UW, H.
      - destruct (da b); [discriminate|]. injection E as <- <-. apply IH, H. }
    assert (CL : forall f, Acc onestepR (TFree f) -> Acc onestepR (TClear f)).
    { intros f H. constructor. intros t' (s & s' & E). destruct s; cbn in E. injection E as <- <-. apply DR, H. }
    assert (FR : forall m, Acc onestepR (TFree m)).
    { induction m as [a|o|k f IH|k b f IH|f IH]; constructor; intros t' (s & s' & E); destruct s as [c r w n torn race]; cbn in E; try discriminate E.
      - destruct w; [discriminate|]. injection E as <- <-. apply RD, IH.
      - destruct (free _); [|discriminate]. injection E as <- <-. apply WR, IH.
      - destruct (free _); [|discriminate]. injection E as <- <-. apply CL, IH. }
    destruct t; auto.
  Qed.
  Lemma lthreads_acc l : Acc lstepR l.
  Proof.
    induction l as [|t l IH].
    - constructor. intros l' (l1 & m & l2 & s & m' & s' & E & _). destruct l1; discriminate E.
    - revert t. induction IH as [l Hl IHl]. intros t. induction (thread_acc t) as [t Ht IHt]. constructor.
      intros l' (l1 & m & l2 & s & m' & s' & E & -> & Es). destruct l1 as [|m1 l1]; cbn in E; injection E as <- E.
      + subst l2. cbn. apply IHt. exists s, s'. exact Es.
      + subst l. cbn. apply IHl. exists l1, m, l2, s, m', s'. auto.
  Qed.

  (** ** Every atomic execution is one of small steps *)
  Lemma lsteps_trans (z1 z2 z3 : list (thread P Q A) * lstate P Q) : lsteps ca da z1 z2 -> lsteps ca da z2 z3 -> lsteps ca da z1 z3.
  Proof. induction 1 as [z|l1 t l2 s t' s' z E _ IH]; intros H; [exact H|]. eapply lsteps_one; [exact E|]. apply IH, H. Qed.
  Lemma lone l1 t l2 s t' s' : lstep ca da t s = Some (t', s') -> lsteps ca da (l1 ++ t :: l2, s) (l1 ++ t' :: l2, s').
  Proof. intros E. eapply lsteps_one; [exact E|constructor]. Qed.
  Lemma small_step l1 (m : act P Q A) l2 c m' c' : (forall b, ca b = false) -> (forall b, da b = false) -> astep m c = Some (m', c') ->
    lsteps ca da (l1 ++ TFree m :: l2, unlocked c) (l1 ++ TFree m' :: l2, unlocked c').
  Proof.
    intros Hc Hd E. destruct m as [a|o|k f|k b f|f]; cbn in E; try discriminate E; injection E as <- <-.
    - eapply lsteps_one; [reflexivity|]. eapply lsteps_one; [reflexivity|]. assert (E : match hget key_eqb c k with Some b => ca b | None => false end = false) by (destruct (hget key_eqb c k); [apply Hc|reflexivity]).
      eapply lsteps_one; [cbn; rewrite E; reflexivity|].
      eapply lsteps_one; [reflexivity|]. constructor.
    - eapply lsteps_one; [reflexivity|]. eapply lsteps_one; [cbn; rewrite Hc; reflexivity|]. eapply lsteps_one; [reflexivity|].
      eapply lsteps_one; [reflexivity|]. constructor.
    - eapply lsteps_one; [reflexivity|]. eapply lsteps_one; [reflexivity|]. cbn [orb negb Nat.eqb].
      assert (D : forall bs, lsteps ca da (l1 ++ TDrop bs f :: l2, LState c 0 true 0 true false) (l1 ++ TFree f :: l2, unlocked [])).
      { induction bs as [|b bs IH]; [eapply lsteps_one; [reflexivity|]; eapply lsteps_one; [reflexivity|]; constructor|].
        eapply lsteps_one; [cbn; rewrite Hd; reflexivity|]. exact IH. }
      apply D.
  Qed.
  Lemma small_steps (z z' : list (act P Q A) * cache P Q) : (forall b, ca b = false) -> (forall b, da b = false) -> steps z z' ->
    lsteps ca da (map TFree (fst z), unlocked (snd z)) (map TFree (fst z'), unlocked (snd z')).
  Proof.
    intros Hc Hd. induction 1 as [z|l1 m l2 c m' c' z E _ IH]; [constructor|]. cbn in *. rewrite map_app in *. cbn in *.
    eapply lsteps_trans; [apply small_step; eassumption|exact IH].
  Qed.

  (** ** Schedules *)
  Lemma lstep_nth_steps i : forall (l0 l : list (thread P Q A)) s z, lsteps ca da (l0 ++ fst (lstep_nth ca da i l s), snd (lstep_nth ca da i l s)) z -> lsteps ca da (l0 ++ l, s) z.
  Proof.
    induction i as [|i IH]; intros l0 [|m l] c s' H; cbn in *; try exact H.
    - destruct (lstep ca da m c) as [[m' c']|] eqn:E; cbn in H; [|exact H]. eapply lsteps_one; eassumption.
    - specialize (IH (l0 ++ [m]) l c s'). rewrite <- !app_assoc in IH. cbn in IH. destruct (lstep_nth ca da i l c) as [r c']; cbn in *. apply IH, H.
  Qed.
  Lemma lschedule_steps is : forall z : list (thread P Q A) * lstate P Q, lsteps ca da z (lschedule ca da is z).
  Proof.
    induction is as [|i is IH]; intros [l c]; cbn; [constructor|]. apply (lstep_nth_steps i [] l c). cbn.
    specialize (IH (lstep_nth ca da i l c)). destruct (lstep_nth ca da i l c). exact IH.
  Qed.
End L.

Lemma C61_exclusive_proof : forall (P : Prog) (Q : QFlag) (ca da : buffer P -> bool) (A : Type) (ms : list (act P Q A)) (c : cache P Q) ts s,
  lsteps ca da (map TFree ms, unlocked c) (ts, s) ->
  l_race s = false /\ alone may_write may_read ts /\
  l_readers s = List.length (filter may_read ts) /\ l_writer s = existsb may_write ts.
Proof.
  intros P Q ca da A ms c ts s H. assert (S := sound_steps ca da A _ _ H (sound_start A ms c)). split; [apply S|]. split; [eapply sound_alone; exact S|].
  split; [apply S|]. destruct S as [_ H2 _ _ _ _ _]. cbn [fst snd] in H2. clear - H2. unfold n_of in H2.
  destruct (existsb may_write ts) eqn:E.
  - apply existsb_exists in E as (t & Ht & Pt). destruct (l_writer s); [reflexivity|]. assert (F : In t (filter may_write ts)) by (apply filter_In; auto).
    destruct (filter may_write ts); [contradiction|discriminate H2].
  - destruct (l_writer s); [|reflexivity]. destruct (filter may_write ts) as [|t l] eqn:F; [discriminate|].
    assert (Ht : In t (filter may_write ts)) by (rewrite F; left; reflexivity). apply filter_In in Ht as [Ht Pt].
    assert (existsb may_write ts = true) by (apply existsb_exists; eauto). congruence.
Qed.

Lemma C61_atomic_proof : forall (P : Prog) (Q : QFlag) (ca da : buffer P -> bool) (A : Type) (ms : list (act P Q A)) (c : cache P Q) ts s,
  lsteps ca da (map TFree ms, unlocked c) (ts, s) -> steps (ms, c) (map left ts, l_map s).
Proof.
  intros P Q ca da A ms c ts s H. assert (R := refines ca da A _ _ H (sound_start A ms c)). cbn [fst snd unlocked l_map] in R. rewrite map_left_free in R. exact R.
Qed.
Lemma C61_all_orders_proof : forall (P : Prog) (Q : QFlag) (ca da : buffer P -> bool) (A : Type) (ms ms' : list (act P Q A)) (c c' : cache P Q),
  (forall b, ca b = false) -> (forall b, da b = false) ->
  (steps (ms, c) (ms', c') <-> lsteps ca da (map TFree ms, unlocked c) (map TFree ms', unlocked c')).
Proof.
  intros P Q ca da A ms ms' c c' Hc Hd. split; intros H.
  - apply (small_steps ca da A _ _ Hc Hd H).
  - apply C61_atomic_proof in H. rewrite map_left_free in H. exact H.
Qed.
Lemma C61_no_deadlock_proof : forall (P : Prog) (Q : QFlag) (ca da : buffer P -> bool) (A : Type) (ms : list (act P Q A)) (c : cache P Q) ts s,
  (forall b, ca b = false) -> (forall b, da b = false) ->
  lsteps ca da (map TFree ms, unlocked c) (ts, s) -> forallb ended ts = true \/ exists z, one_lstep ca da (ts, s) z.
Proof.
  intros P Q ca da A ms c ts s Hc Hd H. destruct (forallb ended ts) eqn:E; [left; reflexivity|right].
  destruct (some_goes_on ca da A ts s Hc Hd (sound_steps ca da A _ _ H (sound_start A ms c))) as (t & [t' s'] & Ht & Hs).
  - clear - E. induction ts as [|t ts IH]; [discriminate|]. cbn in E. destruct (ended t) eqn:Et.
    + destruct (IH E) as (u & Hu & Eu). exists u. split; [right; exact Hu|exact Eu].
    + exists t. split; [left; reflexivity|exact Et].
  - apply in_split in Ht as (l1 & l2 & ->). exists (l1 ++ t' :: l2, s'). exists l1, t, l2, t'. auto.
Qed.
Lemma C61_finite_proof : forall (P : Prog) (Q : QFlag) (ca da : buffer P -> bool) (A : Type) (states : nat -> list (thread P Q A) * lstate P Q),
  ~ forall i, one_lstep ca da (states i) (states (S i)).
Proof.
  intros P Q ca da A states H.
  assert (G : forall l, Acc (lstepR ca da A) l -> forall i, fst (states i) = l -> False).
  { induction 1 as [l _ IH]. intros i Ei. destruct (H i) as (l1 & m & l2 & m' & E1 & E2 & E3).
    apply (IH (fst (states (S i)))) with (i := S i); [|reflexivity].
    exists l1, m, l2, (snd (states i)), m', (snd (states (S i))). rewrite <- Ei, E1, E2. auto. }
  apply (G _ (lthreads_acc ca da A (fst (states 0%nat))) 0%nat eq_refl).
Qed.
Lemma C61_answers_proof : forall (P : Prog) (Q : QFlag) (ca da : buffer P -> bool) (j : joined P Q) (A : Type) (qs : list (nat * prog P Q A)) ts s,
  distinct_vtables P -> flags_eq (Q := Q) -> j_cached j = true -> stats_kept j ->
  lsteps ca da (map (fun q => TFree (client j (fst q) (snd q))) qs, unlocked []) (ts, s) ->
  forall i q m o, nth_error qs i = Some q -> nth_error ts i = Some (TFree m) -> finished m o ->
  same_as (fun n => fst (run (client (uncached j) n (snd q)) [])) (fst q) o.
Proof.
  intros P Q ca da j A qs ts s Hd Hq Hc Hk H i q m o Eq Et Hf.
  rewrite <- (map_map (fun q => client j (fst q) (snd q)) TFree) in H. apply C61_atomic_proof in H.
  eapply C28_threads_proof; try eassumption. change m with (left (TFree m)). apply map_nth_error. exact Et.
Qed.
Lemma C61_reentry_refuted_proof :
  (exists (ca : buffer demo -> bool) (qs : list (dprog Z)) z,
    lsteps ca never (map (fun p => TFree (client (demo_joined true) 3 p)) qs, unlocked []) z /\
    forallb ended (fst z) = false /\ all_wait ca never z = true) /\
  (exists (da : buffer demo -> bool) (qs : list (dprog Z)) z,
    lsteps never da (map (fun p => TFree (client (demo_joined true) 3 p)) qs, unlocked []) z /\
    forallb ended (fst z) = false /\ all_wait never da z = true).
Proof.
  split.
  - exists (asks_at 130), [ask_hp 0%nat any; ask_hp 1%nat any],
      (lschedule (asks_at 130) never (rounds 2 30) (map (fun p => TFree (client (demo_joined true) 3 p)) [ask_hp 0%nat any; ask_hp 1%nat any], unlocked [])).
    split; [apply lschedule_steps|]. split; vm_compute; reflexivity.
  - exists (asks_at 4549), [ask_clear_ask 0%nat any],
      (lschedule never (asks_at 4549) (rounds 1 60) (map (fun p => TFree (client (demo_joined true) 3 p)) [ask_clear_ask 0%nat any], unlocked [])).
    split; [apply lschedule_steps|]. split; vm_compute; reflexivity.
Qed.
