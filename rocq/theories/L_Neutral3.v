(** Proofs about the default of [bool] and [Prioritized], and when [Prioritized] does what it documents. *)
From Coq Require Import ZArith List Bool Lia.
From Verif Require Import M_Outcome M_Value M_Types S_Types L_Types3 L_TypesProofs.
Import ListNotations.
Local Open Scope Z_scope.

Lemma C12_bool_proof : default_neutral boolV (fun _ => True) /\ splittable boolV (fun _ => True) (fun _ => True).
Proof.
  split.
  - intros [] _; split; reflexivity.
  - intros v op _ _ Hb. destruct op as [x|x|x|x|x|x|x]; try solve [destruct x]; try destruct Hb; destruct v; reflexivity.
Qed.

Lemma C12_Prioritized_right_proof : forall A d (last : bool) (v : prio A), let S := prioritized A d last in
  sv_join S v (sv_default S) = Done v <-> (if last then 0 < p_priority v else 0 <= p_priority v) \/ p_value v = d.
Proof.
  intros A d last [x p]. cbn. destruct last.
  - destruct (Z.leb_spec p 0); split; intros E; try tauto.
    + injection E as <-. tauto.
    + destruct E as [E | ->]; [lia|reflexivity].
  - destruct (Z.ltb_spec p 0); split; intros E; try tauto.
    + injection E as <-. tauto.
    + destruct E as [E | ->]; [lia|reflexivity].
Qed.

Lemma C12_Prioritized_left_proof : forall A d (last : bool) (v : prio A), let S := prioritized A d last in
  (sv_join S (sv_default S) v = Done v <-> p_priority v = 0 /\ (last = true \/ p_value v = d)) /\
  ((let! w := sv_join S (sv_default S) v in sv_eval S w) = sv_eval S v <->
    (if last then 0 <= p_priority v else 0 < p_priority v) \/ p_value v = d).
Proof.
  intros A d last [x p]. cbn.
  assert (F : forall (a b : A), @Done A a = Done b -> a = b) by (intros a b E; injection E; auto).
  assert (G : forall (a b : prio A), @Done (prio A) a = Done b -> p_value a = p_value b /\ p_priority a = p_priority b)
    by (intros a b E; injection E as ->; auto).
  destruct last;
    [destruct (Z.leb_spec 0 p)|destruct (Z.ltb_spec 0 p)]; cbn; split; split; intros E;
    try (apply G in E; cbn in E; destruct E as [E1 E2]; subst); try (apply F in E; subst);
    try (destruct E as [-> [E|<-]]; first [discriminate | reflexivity | lia]);
    try (destruct E as [E | ->]; first [lia | reflexivity]);
    try (split; [lia | auto]); auto; try lia.
Qed.

Lemma C12_Prioritized_split_proof : forall A d (last : bool) (v : prio A) (o : stat_op (prioritized A d last)),
  (forall b, o <> OBase b) ->
  write_to o v = Done v /\
  ((let! w := into_stat o in sv_join (prioritized A d last) v w) = write_to o v <->
   (if last then 0 < p_priority v else 0 <= p_priority v) \/ p_value v = d).
Proof.
  intros A d last v o Hb.
  assert (W : write_to o v = Done v).
  { destruct o as [x|x|x|x|x|x|x]; try solve [destruct x]; try reflexivity. destruct (Hb x eq_refl). }
  split; [exact W|]. rewrite W, <- C12_Prioritized_right_proof.
  destruct o as [x|x|x|x|x|x|x]; try solve [destruct x]; try reflexivity. destruct (Hb x eq_refl).
Qed.

Lemma C12_Prioritized_refuted_proof : forall last : bool, let S := prioritized Z 0 last in
  exists v : prio Z, sv_join S v (sv_default S) <> Done v /\
    (let! w := sv_join S (sv_default S) v in sv_eval S w) <> sv_eval S v.
Proof. intros []; exists (Prio 5 (-1)); split; discriminate. Qed.

Lemma takes_split {A} last p (l : list (prio A)) :
  (forall y, In y l -> takes last p y = false) \/
  exists l1 x l2, l = l1 ++ x :: l2 /\ takes last p x = true /\ (forall y, In y l2 -> takes last p y = false).
Proof.
  induction l as [|a l IH]; [left; intros y []|].
  destruct IH as [H | (l1 & x & l2 & -> & Hx & H)].
  - destruct (takes last p a) eqn:E.
    + right. exists [], a, l. auto.
    + left. intros y [<-|Hy]; auto.
  - right. exists (a :: l1), x, l2. auto.
Qed.

Lemma C14_documented_iff_proof : forall A d (last : bool) (v : prio A) l l1 best l2,
  NoDup (map p_value (v :: l)) ->
  v :: l = l1 ++ best :: l2 ->
  (forall y, In y l1 -> if last then p_priority y <= p_priority best else p_priority y < p_priority best) ->
  (forall y, In y l2 -> if last then p_priority y < p_priority best else p_priority y <= p_priority best) ->
  let S := prioritized A d last in
  (let! w := ofold (sv_join S) v l in sv_eval S w) = Done (p_value best) <->
  (forall y, In y l2 -> (if last then p_priority v <=? p_priority y else p_priority v <? p_priority y) = false).
Proof.
  intros A d last v l l1 best l2 ND E B1 B2 S. unfold S. rewrite prio_join_spec. cbn [obind prioritized sv_eval p_value].
  change (forall y, In y l2 -> (if last then p_priority v <=? p_priority y else p_priority v <? p_priority y) = false)
    with (forall y, In y l2 -> takes last (p_priority v) y = false).
  destruct l1 as [|v' l1]; injection E as <- ->.
  - assert (H : forall y, In y l2 -> takes last (p_priority v) y = false).
    { intros y Hy. specialize (B2 y Hy). unfold takes. destruct last; [apply Z.leb_gt|apply Z.ltb_ge]; lia. }
    rewrite (taken_none _ _ _ _ H). split; auto.
  - assert (Hb : takes last (p_priority v) best = true).
    { specialize (B1 v (or_introl eq_refl)). unfold takes. destruct last; [apply Z.leb_le|apply Z.ltb_lt]; lia. }
    split.
    + intros T. injection T as T. destruct (takes_split last (p_priority v) l2) as [H | (m1 & x & m2 & -> & Hx & H)]; [exact H|exfalso].
      assert (T' : taken last (p_priority v) (p_value v) (l1 ++ best :: m1 ++ x :: m2) = p_value x).
      { change (l1 ++ best :: m1 ++ x :: m2) with (l1 ++ (best :: m1) ++ x :: m2). rewrite app_assoc.
        apply taken_last; assumption. }
      rewrite T in T'. cbn [map] in ND. apply NoDup_cons_iff in ND. destruct ND as [_ ND].
      rewrite map_app in ND. apply NoDup_remove_2 in ND. apply ND. apply in_or_app. right.
      change (In (p_value best) (map p_value (m1 ++ x :: m2))). rewrite T'. apply in_map.
      apply in_or_app. right. left. reflexivity.
    + intros H. f_equal. apply taken_last; assumption.
Qed.

Lemma C14_documented_when_proof : forall A d (last : bool) (v : prio A) l l1 best l2,
  v :: l = l1 ++ best :: l2 ->
  (forall y, In y l1 -> if last then p_priority y <= p_priority best else p_priority y < p_priority best) ->
  (forall y, In y l2 -> if last then p_priority y < p_priority best else p_priority y <= p_priority best) ->
  (forall y, In y l2 -> (if last then p_priority v <=? p_priority y else p_priority v <? p_priority y) = false) ->
  let S := prioritized A d last in
  (let! w := ofold (sv_join S) v l in sv_eval S w) = Done (p_value best).
Proof.
  intros A d last v l l1 best l2 E B1 B2 H S. unfold S. rewrite prio_join_spec. cbn [obind prioritized sv_eval p_value].
  destruct l1 as [|v' l1]; injection E as <- ->.
  - f_equal. apply taken_none. exact H.
  - f_equal. apply taken_last; [|exact H].
    specialize (B1 v (or_introl eq_refl)). unfold takes. destruct last; [apply Z.leb_le|apply Z.ltb_lt]; lia.
Qed.
