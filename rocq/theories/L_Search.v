From Coq Require Import Arith List Lia.
From Verif Require Import M_Search S_Search.
Import ListNotations.

Lemma div2_lt n : 0 < n -> n / 2 < n. Proof. intros. apply Nat.div_lt; lia. Qed.
Lemma div2_le n : n / 2 <= n. Proof. destruct n; [reflexivity|]. apply Nat.lt_le_incl, div2_lt. lia. Qed.
Lemma div2_pos n : 1 < n -> 0 < n / 2.
Proof. intros. apply Nat.div_str_pos. lia. Qed.

Lemma div2_twice n : n / 2 + n / 2 <= n.
Proof. pose proof (Nat.mul_div_le n 2). lia. Qed.

Lemma at_cmp_nth l i : i < length l -> nth_error l i = Some (at_cmp l i).
Proof. intros. unfold at_cmp. apply nth_error_nth'. exact H. Qed.

(** Where the comparison changes, in a sorted slice. *)
Lemma sorted_at a b c i : i < a + b + c ->
  at_cmp (repeat Lt a ++ repeat Eq b ++ repeat Gt c) i =
  (if i <? a then Lt else if i <? a + b then Eq else Gt).
Proof.
  intros H. unfold at_cmp.
  destruct (Nat.ltb_spec i a).
  - rewrite app_nth1 by (rewrite repeat_length; lia). rewrite (nth_indep _ Eq Lt) by (rewrite repeat_length; lia).
    apply nth_repeat.
  - rewrite app_nth2 by (rewrite repeat_length; lia). rewrite repeat_length.
    destruct (Nat.ltb_spec i (a + b)).
    + rewrite app_nth1 by (rewrite repeat_length; lia). apply nth_repeat.
    + rewrite app_nth2 by (rewrite repeat_length; lia). rewrite repeat_length.
      rewrite (nth_indep _ Eq Gt) by (rewrite repeat_length; lia). apply nth_repeat.
Qed.
Lemma sorted_length a b c : length (repeat Lt a ++ repeat Eq b ++ repeat Gt c) = a + b + c.
Proof. rewrite !app_length, !repeat_length. lia. Qed.

(** ** The older algorithm *)
Lemma bs_old_ok fuel l lo hi i : hi <= length l -> bs_old_loop fuel l lo hi = inl i -> nth_error l i = Some Eq.
Proof.
  revert lo hi. induction fuel as [|fuel IH]; intros lo hi Hh H; cbn [bs_old_loop] in H; [discriminate|].
  destruct (Nat.ltb_spec lo hi); [|discriminate].
  pose proof (div2_lt (hi - lo) ltac:(lia)).
  destruct (at_cmp l (lo + (hi - lo) / 2)) eqn:E.
  - assert (i = lo + (hi - lo) / 2) as -> by congruence. rewrite at_cmp_nth by lia. rewrite E. reflexivity.
  - apply (IH _ _ Hh H).
  - apply (IH lo (lo + (hi - lo) / 2)); [lia|exact H].
Qed.
Lemma bs_old_err fuel l lo hi i : lo <= hi <= length l -> bs_old_loop fuel l lo hi = inr i -> i <= length l.
Proof.
  revert lo hi. induction fuel as [|fuel IH]; intros lo hi Hh H; cbn [bs_old_loop] in H; [inversion H; lia|].
  destruct (Nat.ltb_spec lo hi); [|inversion H; lia].
  pose proof (div2_lt (hi - lo) ltac:(lia)).
  destruct (at_cmp l (lo + (hi - lo) / 2)) eqn:E.
  - discriminate.
  - apply (IH (lo + (hi - lo) / 2 + 1) hi); [lia|exact H].
  - apply (IH lo (lo + (hi - lo) / 2)); [lia|exact H].
Qed.
Lemma bs_old_sorted a b c fuel lo hi : hi - lo < fuel -> lo <= a -> a + b <= hi -> hi <= a + b + c ->
  let r := bs_old_loop fuel (repeat Lt a ++ repeat Eq b ++ repeat Gt c) lo hi in
  (0 < b -> exists i, r = inl i) /\ (b = 0 -> r = inr a).
Proof.
  revert lo hi. induction fuel as [|fuel IH]; intros lo hi Hf Hl Hh Hc; [lia|]. cbn [bs_old_loop].
  destruct (Nat.ltb_spec lo hi) as [Hlt|Hge].
  - pose proof (div2_lt (hi - lo) ltac:(lia)). set (mid := lo + (hi - lo) / 2).
    rewrite sorted_at by lia.
    destruct (Nat.ltb_spec mid a); [|destruct (Nat.ltb_spec mid (a + b))].
    + apply IH; unfold mid in *; lia.
    + split; [eauto|lia].
    + apply IH; unfold mid in *; lia.
  - split; [lia|]. intros ->. f_equal. lia.
Qed.

Theorem bs_old_contract : bs_contract bs_old.
Proof.
  split.
  - intros l i. apply bs_old_ok. lia.
  - intros l i. apply bs_old_err. lia.
  - intros l [a [b [c ->]]] HI. unfold bs_old. rewrite sorted_length.
    destruct (bs_old_sorted a b c (S (a + b + c)) 0 (a + b + c)) as [H _]; try lia. apply H.
    destruct b; [|lia]. exfalso. cbn in HI. apply in_app_or in HI as [HI|HI]; apply repeat_spec in HI; discriminate.
  - intros a c. unfold bs_old. pose proof (sorted_length a 0 c) as L. cbn in L. rewrite L.
    destruct (bs_old_sorted a 0 c (S (a + 0 + c)) 0 (a + 0 + c)) as [_ H]; try lia. apply H. reflexivity.
Qed.

(** ** The current algorithm *)
Lemma bs_new_base fuel l lo size : 0 < size -> lo + size <= length l -> bs_new_loop fuel l lo size < length l.
Proof.
  revert lo size. induction fuel as [|fuel IH]; intros lo size Hs Hl; cbn [bs_new_loop]; [lia|].
  destruct (Nat.ltb_spec 1 size); [|lia].
  pose proof (div2_lt size ltac:(lia)). pose proof (div2_pos size ltac:(lia)).
  apply IH; destruct (at_cmp l (lo + size / 2)); lia.
Qed.
(** The base ends on the last element that is not [Greater], if there is one. *)
Lemma bs_new_sorted a b c fuel lo size : 0 < size -> size <= fuel ->
  lo + size <= a + b + c -> lo <= Nat.max (a + b) 1 - 1 -> a + b <= lo + size ->
  bs_new_loop fuel (repeat Lt a ++ repeat Eq b ++ repeat Gt c) lo size = Nat.max (a + b) 1 - 1.
Proof.
  revert lo size. induction fuel as [|fuel IH]; intros lo size Hs Hf Hl Hlo Hhi; cbn [bs_new_loop]; [lia|].
  destruct (Nat.ltb_spec 1 size); [|lia].
  pose proof (div2_lt size ltac:(lia)). pose proof (div2_pos size ltac:(lia)).
  pose proof (div2_twice size). rewrite sorted_at by lia.
  destruct (Nat.ltb_spec (lo + size / 2) a); [|destruct (Nat.ltb_spec (lo + size / 2) (a + b))];
  apply IH; lia.
Qed.

Theorem bs_new_contract : bs_contract bs_new.
Proof.
  assert (B : forall l, l <> [] -> bs_new_loop (length l) l 0 (length l) < length l).
  { intros l H. apply bs_new_base; [|lia]. destruct l; [congruence|cbn; lia]. }
  assert (R : forall a b c, 0 < a + b + c -> let l := repeat Lt a ++ repeat Eq b ++ repeat Gt c in
     bs_new l = match at_cmp l (Nat.max (a + b) 1 - 1) with
                | Eq => inl (Nat.max (a + b) 1 - 1) | Lt => inr (Nat.max (a + b) 1 - 1 + 1) | Gt => inr (Nat.max (a + b) 1 - 1) end).
  { intros a b c H l.
    assert (E : bs_new_loop (length l) l 0 (length l) = Nat.max (a + b) 1 - 1).
    { unfold l. rewrite sorted_length. apply bs_new_sorted; lia. }
    unfold bs_new. rewrite E. pose proof (sorted_length a b c) as L. fold l in L. destruct l; [cbn in L; lia|reflexivity]. }
  split.
  - intros l i. unfold bs_new. destruct l as [|x l']; [discriminate|].
    set (l := x :: l'). specialize (B l ltac:(discriminate)). set (base := bs_new_loop _ _ _ _) in *.
    destruct (at_cmp l base) eqn:E; intros H; inversion H; subst.
    rewrite at_cmp_nth by exact B. rewrite E. reflexivity.
  - intros l i. unfold bs_new. destruct l as [|x l']; [intros H; inversion H; cbn; lia|].
    set (l := x :: l'). specialize (B l ltac:(discriminate)). set (base := bs_new_loop _ _ _ _) in *.
    destruct (at_cmp l base) eqn:E; intros H; inversion H; subst; lia.
  - intros l [a [b [c ->]]] HI.
    assert (0 < b).
    { destruct b; [|lia]. exfalso. cbn in HI. apply in_app_or in HI as [HI|HI]; apply repeat_spec in HI; discriminate. }
    rewrite R by lia. rewrite sorted_at by lia.
    destruct (Nat.ltb_spec (Nat.max (a + b) 1 - 1) a); [lia|].
    destruct (Nat.ltb_spec (Nat.max (a + b) 1 - 1) (a + b)); [eauto|lia].
  - intros a c. destruct (Nat.eq_dec (a + c) 0) as [E|E].
    + assert (a = 0) as -> by lia. assert (c = 0) as -> by lia. reflexivity.
    + pose proof (R a 0 c ltac:(lia)) as H. cbn zeta in H. cbn [repeat app] in H. rewrite H.
      pose proof (sorted_at a 0 c) as A. cbn [repeat app] in A. rewrite A by lia.
      destruct (Nat.ltb_spec (Nat.max (a + 0) 1 - 1) a); [f_equal; lia|].
      destruct (Nat.ltb_spec (Nat.max (a + 0) 1 - 1) (a + 0)); [lia|f_equal; lia].
Qed.

(** ** partition_point *)
Lemma map_repeat {A B} (f : A -> B) x n : map f (repeat x n) = repeat (f x) n.
Proof. induction n; cbn; congruence. Qed.
Lemma partition_point_spec bs a c : bs_contract bs ->
  partition_point bs (repeat true a ++ repeat false c) = a.
Proof.
  intros C. unfold partition_point. rewrite map_app, !map_repeat. rewrite (bc_missing bs C). reflexivity.
Qed.
Lemma partition_point_range bs l : bs_contract bs -> partition_point bs l <= length l.
Proof.
  intros C. unfold partition_point. destruct (bs _) as [i|i] eqn:E.
  - apply (bc_ok bs C) in E. rewrite <- (map_length (fun b : bool => if b then Lt else Gt)).
    apply Nat.lt_le_incl, nth_error_Some. congruence.
  - apply (bc_range bs C) in E. rewrite map_length in E. exact E.
Qed.
