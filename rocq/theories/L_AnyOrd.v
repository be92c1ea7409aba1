(** Lemmas on searching and sorting under an order that keeps no law. *)
From Coq Require Import ZArith Arith List Bool Lia Sorted Permutation Relations.
From Verif Require Import M_Outcome M_Value M_Qualifier M_Search M_Stat M_StatMap M_AnyOrd
  S_Search S_StatMap S_AnyOrd L_Search.
Import ListNotations.

(** ** Searching *)
Lemma any_old_pure fuel l : forall n lo hi, any_old_loop fuel (fun _ i => Some (at_cmp l i)) n lo hi = Some (bs_old_loop fuel l lo hi).
Proof.
  induction fuel as [|fuel IH]; intros n lo hi; cbn [any_old_loop bs_old_loop]; [reflexivity|].
  destruct (lo <? hi); [|reflexivity]. destruct (at_cmp l (lo + (hi - lo) / 2)); [reflexivity|apply IH|apply IH].
Qed.
Lemma any_new_pure fuel l : forall n lo size, exists n', any_new_loop fuel (fun _ i => Some (at_cmp l i)) n lo size = Some (n', bs_new_loop fuel l lo size).
Proof.
  induction fuel as [|fuel IH]; intros n lo size; cbn [any_new_loop bs_new_loop]; [eauto|].
  destruct (1 <? size); [|eauto]. apply IH.
Qed.
Lemma pure_old l : pure_search any_old l = bs_old l.
Proof. unfold pure_search, any_old, bs_old. rewrite any_old_pure. reflexivity. Qed.
Lemma pure_new l : pure_search any_new l = bs_new l.
Proof.
  unfold pure_search, any_new, bs_new. destruct l as [|x l]; [reflexivity|]. cbn [Nat.eqb length].
  destruct (any_new_pure (S (length l)) (x :: l) 0 0 (S (length l))) as [n' ->].
  destruct (at_cmp (x :: l) _); reflexivity.
Qed.
Lemma contract_ext b b' : (forall l, b l = b' l) -> bs_contract b' -> bs_contract b.
Proof.
  intros E [H1 H2 H3 H4]. constructor; intros.
  - apply H1. rewrite <- E. assumption.
  - apply H2. rewrite <- E. assumption.
  - destruct (H3 l) as [i Hi]; auto. exists i. rewrite E. exact Hi.
  - rewrite E. apply H4.
Qed.

Lemma any_old_found fuel f : forall n lo hi i, any_old_loop fuel f n lo hi = Some (inl i) -> i < hi /\ exists k, f k i = Some Eq.
Proof.
  induction fuel as [|fuel IH]; intros n lo hi i; cbn [any_old_loop]; [discriminate|].
  destruct (Nat.ltb_spec lo hi) as [H|H]; [|discriminate]. pose proof (div2_lt (hi - lo) ltac:(lia)) as H0. set (h := (hi - lo) / 2) in *.
  destruct (f n (lo + h)) as [[]|] eqn:E; try discriminate; intros R.
  - inversion R; subst. split; [lia|eauto].
  - apply IH in R. exact R.
  - apply IH in R. split; [lia|apply R].
Qed.
(** The gap returned lies between [lo] and [hi]; the elements next to it outside that were
    probed are handed on. *)
Lemma any_old_gap f (len : nat) fuel : forall n lo hi i, hi - lo < fuel -> lo <= hi -> hi <= len ->
  (0 < lo -> exists j k, lo <= S j /\ j < len /\ (f k j = Some Lt \/ f k j = Some Eq)) ->
  (hi < len -> exists j k, j <= hi /\ (f k j = Some Gt \/ f k j = Some Eq)) ->
  any_old_loop fuel f n lo hi = Some (inr i) ->
  i <= len /\ (0 < i -> exists j k, i <= S j /\ j < len /\ (f k j = Some Lt \/ f k j = Some Eq)) /\
  (i < len -> exists j k, j <= i /\ (f k j = Some Gt \/ f k j = Some Eq)).
Proof.
  induction fuel as [|fuel IH]; intros n lo hi i Hf Hl Hh L R; cbn [any_old_loop]; [lia|].
  destruct (Nat.ltb_spec lo hi) as [H|H].
  - pose proof (div2_lt (hi - lo) ltac:(lia)) as Hm. pose proof (div2_le (hi - lo)) as Hm'. set (h := (hi - lo) / 2) in *.
    destruct (f n (lo + h)) as [[]|] eqn:E; try discriminate; apply IH; try lia; auto.
    + intros _. exists (lo + h), n. split; [lia|]. split; [lia|auto].
    + intros _. exists (lo + h), n. split; [lia|auto].
  - intros K. inversion K; subst. assert (i = hi) by lia. subst. auto.
Qed.
Lemma any_new_loop_inv f (len : nat) fuel : forall n base size n' b, 0 < size -> size <= fuel -> base + size <= len ->
  (0 < base -> exists k, f k base = Some Lt \/ f k base = Some Eq) ->
  (base + size < len -> exists j k, j <= base + size /\ f k j = Some Gt) ->
  any_new_loop fuel f n base size = Some (n', b) ->
  b < len /\ (0 < b -> exists k, f k b = Some Lt \/ f k b = Some Eq) /\ (S b < len -> exists j k, j <= S b /\ f k j = Some Gt).
Proof.
  induction fuel as [|fuel IH]; intros n base size n' b Hs Hf Hl L R; cbn [any_new_loop]; [lia|].
  destruct (Nat.ltb_spec 1 size) as [H|H].
  - pose proof (div2_pos size H). pose proof (div2_lt size Hs). pose proof (div2_twice size). set (h := size / 2) in *.
    destruct (f n (base + h)) as [[]|] eqn:E; try discriminate; apply IH; try lia; eauto.
    + intros K. replace (base + h + (size - h)) with (base + size) in * by lia. auto.
    + intros K. replace (base + h + (size - h)) with (base + size) in * by lia. auto.
    + intros K. exists (base + h), n. split; [lia|exact E].
  - intros K. inversion K; subst. assert (size = 1) by lia. subst. split; [lia|]. split; [exact L|].
    intros J. replace (b + 1) with (S b) in R by lia. auto.
Qed.
Lemma any_old_ext f g fuel : forall n lo hi, (forall n i, i < hi -> f n i = g n i) -> any_old_loop fuel f n lo hi = any_old_loop fuel g n lo hi.
Proof.
  induction fuel as [|fuel IH]; intros n lo hi E; cbn [any_old_loop]; [reflexivity|].
  destruct (Nat.ltb_spec lo hi) as [H|H]; [|reflexivity]. pose proof (div2_lt (hi - lo) ltac:(lia)). set (h := (hi - lo) / 2) in *.
  rewrite <- E by lia. destruct (f n (lo + h)) as [[]|]; try reflexivity; apply IH; intros; apply E; lia.
Qed.
Lemma any_old_returns f fuel : forall n lo hi, (forall n i, i < hi -> f n i <> None) -> any_old_loop fuel f n lo hi <> None.
Proof.
  induction fuel as [|fuel IH]; intros n lo hi E; cbn [any_old_loop]; [discriminate|].
  destruct (Nat.ltb_spec lo hi) as [H|H]; [|discriminate]. pose proof (div2_lt (hi - lo) ltac:(lia)). set (h := (hi - lo) / 2) in *.
  pose proof (E n (lo + h) ltac:(lia)). destruct (f n (lo + h)) as [[]|]; try congruence; apply IH; intros; apply E; lia.
Qed.
Lemma any_new_ext f g fuel : forall n base size, (forall n i, i < base + size -> f n i = g n i) -> any_new_loop fuel f n base size = any_new_loop fuel g n base size.
Proof.
  induction fuel as [|fuel IH]; intros n base size E; cbn [any_new_loop]; [reflexivity|].
  destruct (Nat.ltb_spec 1 size) as [H|H]; [|reflexivity]. pose proof (div2_lt size ltac:(lia)). set (h := size / 2) in *.
  rewrite <- E by lia. destruct (f n (base + h)) as [[]|]; try reflexivity; apply IH; intros; apply E; lia.
Qed.
Lemma any_new_returns f fuel : forall n base size, (forall n i, i < base + size -> f n i <> None) -> any_new_loop fuel f n base size <> None.
Proof.
  induction fuel as [|fuel IH]; intros n base size E; cbn [any_new_loop]; [discriminate|].
  destruct (Nat.ltb_spec 1 size) as [H|H]; [|discriminate]. pose proof (div2_lt size ltac:(lia)). set (h := size / 2) in *.
  pose proof (E n (base + h) ltac:(lia)). destruct (f n (base + h)) as [[]|]; try congruence; apply IH; intros; apply E; lia.
Qed.
Lemma any_new_base f fuel : forall n base size n' b, 0 < size -> any_new_loop fuel f n base size = Some (n', b) -> b < base + size.
Proof.
  induction fuel as [|fuel IH]; intros n base size n' b Hs; cbn [any_new_loop]; [intros H; inversion H; lia|].
  destruct (Nat.ltb_spec 1 size) as [H|H]; [|intros K; inversion K; lia].
  pose proof (div2_lt size Hs). pose proof (div2_twice size). set (h := size / 2) in *.
  destruct (f n (base + h)) as [[]|]; try discriminate; intros K; apply IH in K; lia.
Qed.
Lemma any_old_contract : search_contract any_old.
Proof.
  constructor.
  - apply (contract_ext _ _ pure_old). apply bs_old_contract.
  - intros f g len E. apply any_old_ext, E.
  - intros f len E. apply any_old_returns, E.
  - intros f len i H. exact (any_old_found _ _ _ _ _ _ H).
  - intros f len i H. apply (any_old_gap f len (S len) 0 0 len i); try lia; auto.
Qed.
Lemma any_new_contract : search_contract any_new.
Proof.
  constructor.
  - apply (contract_ext _ _ pure_new). apply bs_new_contract.
  - intros f g len E. unfold any_new. destruct (Nat.eqb_spec len 0) as [|N]; [reflexivity|]. rewrite (any_new_ext f g) by exact E.
    destruct (any_new_loop len g 0 0 len) as [[n b]|] eqn:L; [|reflexivity]. apply any_new_base in L; [|lia]. rewrite E by exact L. reflexivity.
  - intros f len E. unfold any_new. destruct (Nat.eqb_spec len 0) as [|N]; [discriminate|].
    pose proof (any_new_returns f len 0 0 len E) as R. destruct (any_new_loop len f 0 0 len) as [[n b]|] eqn:L; [|congruence].
    apply any_new_base in L; [|lia]. specialize (E n b L). destruct (f n b) as [[]|]; congruence.
  - intros f len i. unfold any_new. destruct (Nat.eqb_spec len 0) as [|N]; [discriminate|].
    destruct (any_new_loop len f 0 0 len) as [[n b]|] eqn:E; [|discriminate].
    destruct (any_new_loop_inv f len len 0 0 len n b) as [H1 _]; try lia; auto.
    destruct (f n b) as [[]|] eqn:F; try discriminate. intros H. inversion H; subst. eauto.
  - intros f len i. unfold any_new. destruct (Nat.eqb_spec len 0) as [->|N]; [intros H; inversion H; subst; lia|].
    destruct (any_new_loop len f 0 0 len) as [[n b]|] eqn:E; [|discriminate].
    destruct (any_new_loop_inv f len len 0 0 len n b) as [H1 [H2 H3]]; try lia; auto.
    destruct (f n b) as [[]|] eqn:F; try discriminate; intros H; inversion H; subst.
    + split; [lia|]. split.
      * intros _. exists b, n. split; [lia|]. auto.
      * intros K. destruct H3 as [j [k [J1 J2]]]; [lia|]. exists j, k. split; [lia|auto].
    + split; [lia|]. split.
      * intros K. destruct (H2 K) as [k J]. exists i, k. split; [lia|]. auto.
      * intros K. exists i, n. auto.
Qed.

(** ** Sorting *)
Section Sorting.
  Context {A : Type}.
  Variable c : asked A A.
  Notation ch := (clos_refl_trans A (said c)).
  Notation chr := (fun a b => clos_refl_trans A (said c) b a).

  Lemma rev_insert_perm l : forall n x, Permutation (x :: l) (snd (fst (rev_insert c n x l))).
  Proof.
    induction l as [|y l IH]; intros n x; cbn [rev_insert]; [reflexivity|].
    destruct (c n x y) as [[]|]; cbn [fst snd]; try reflexivity.
    rewrite perm_swap. constructor. apply IH.
  Qed.
  Lemma rev_insert_head l n x : exists y r, snd (fst (rev_insert c n x l)) = y :: r /\ (y = x \/ exists l', l = y :: l').
  Proof.
    destruct l as [|y l]; cbn [rev_insert]; [exists x, []; auto|].
    destruct (c n x y) as [[]|]; cbn [fst snd]; first [exists y; eexists; split; [reflexivity|]; eauto; fail|exists x; eexists; split; [reflexivity|]; auto].
  Qed.
  Lemma rev_insert_sorted l : forall n x, Sorted chr l -> snd (rev_insert c n x l) = true ->
    Sorted chr (snd (fst (rev_insert c n x l))).
  Proof.
    induction l as [|y l IH]; intros n x S; cbn [rev_insert]; [repeat constructor|].
    inversion S as [|? ? S1 S2]; subst.
    destruct (c n x y) as [[]|] eqn:E; cbn [fst snd]; intros R; try discriminate.
    - constructor; [exact S|]. constructor. apply rt_step. right. exists n. auto.
    - constructor; [apply IH; assumption|]. destruct (rev_insert_head l (Datatypes.S n) x) as [z [r [-> [->|[l' ->]]]]]; constructor.
      + apply rt_step. left. exists n. auto.
      + inversion S2; subst. assumption.
    - constructor; [exact S|]. constructor. apply rt_step. right. exists n. auto.
  Qed.
  Lemma insertion_loop_perm todo : forall n dn, Permutation (rev dn ++ todo) (fst (insertion_loop c n dn todo)).
  Proof.
    induction todo as [|x todo IH]; intros n dn; cbn [insertion_loop]; [rewrite app_nil_r; reflexivity|].
    pose proof (rev_insert_perm dn n x) as Pm. destruct (rev_insert c n x dn) as [[n' r] ok]. cbn [fst snd] in *.
    assert (E : Permutation (rev dn ++ x :: todo) (rev r ++ todo)).
    { rewrite <- (Permutation_middle (rev dn) todo x), app_comm_cons. apply Permutation_app_tail.
      transitivity (x :: dn); [constructor; symmetry; apply Permutation_rev|]. rewrite Pm. apply Permutation_rev. }
    destruct ok; cbn [fst]; [rewrite <- IH|]; exact E.
  Qed.
  Lemma sorted_rev_cons l : forall x, Sorted chr l -> (forall y r, l = y :: r -> ch y x) -> Sorted ch (rev l ++ [x]).
  Proof.
    assert (J : forall (k : list A) x y, Sorted ch (k ++ [x]) -> ch x y -> Sorted ch ((k ++ [x]) ++ [y])).
    { clear l. induction k as [|z l IH]; intros x y S H; cbn in *.
      - constructor; [constructor; constructor|constructor; exact H].
      - inversion S as [|? ? S1 S2]; subst. constructor; [apply IH; assumption|].
        destruct l; cbn in *; inversion S2; subst; constructor; assumption. }
    induction l as [|y l IH]; intros x S H; cbn [rev app]; [repeat constructor|].
    inversion S as [|? ? S1 S2]; subst. apply J; [|eapply H; reflexivity]. apply IH; [exact S1|].
    intros z r ->. inversion S2; subst. assumption.
  Qed.
  Lemma sorted_rev l : Sorted chr l -> Sorted ch (rev l).
  Proof.
    intros S. destruct l as [|x l]; [constructor|]. inversion S as [|? ? S1 S2]; subst. cbn [rev]. apply sorted_rev_cons; [exact S1|].
    intros y r ->. inversion S2; subst. assumption.
  Qed.
  Lemma insertion_loop_sorted todo : forall n dn, Sorted chr dn -> snd (insertion_loop c n dn todo) = true ->
    Sorted ch (fst (insertion_loop c n dn todo)).
  Proof.
    induction todo as [|x todo IH]; intros n dn S; cbn [insertion_loop]; [intros _; apply sorted_rev, S|].
    pose proof (rev_insert_sorted dn n x S) as H. destruct (rev_insert c n x dn) as [[n' r] ok]. cbn [fst snd] in *.
    destruct ok; [|discriminate]. apply IH. apply H. reflexivity.
  Qed.

  Lemma merge_perm fuel : forall n a b, Permutation (a ++ b) (snd (fst (merge_loop c fuel n a b))).
  Proof.
    induction fuel as [|fuel IH]; intros n a b; cbn [merge_loop]; [reflexivity|].
    destruct a as [|x a]; [reflexivity|]. destruct b as [|y b]; [cbn; rewrite app_nil_r; reflexivity|].
    destruct (c n y x) as [[]|]; cbn [fst snd]; try reflexivity.
    - cbn [app]. constructor. apply IH.
    - rewrite <- (Permutation_middle (x :: a) b y). constructor. apply IH.
    - cbn [app]. constructor. apply IH.
  Qed.
  Lemma merge_head fuel n a b z r : snd (fst (merge_loop c fuel n a b)) = z :: r ->
    (exists a', a = z :: a') \/ (exists b', b = z :: b').
  Proof.
    destruct fuel as [|fuel]; cbn [merge_loop fst snd]; [destruct a; cbn; intros H; inversion H; subst; eauto|].
    destruct a as [|x a]; [cbn; eauto|]. destruct b as [|y b]; [cbn; intros H; inversion H; subst; eauto|].
    destruct (c n y x) as [[]|]; cbn [fst snd app]; intros H; inversion H; subst; eauto.
  Qed.
  Lemma merge_sorted fuel : forall n a b, Sorted ch a -> Sorted ch b -> snd (merge_loop c fuel n a b) = true ->
    Sorted ch (snd (fst (merge_loop c fuel n a b))).
  Proof.
    induction fuel as [|fuel IH]; intros n a b Sa Sb; cbn [merge_loop]; [discriminate|].
    destruct a as [|x a]; [intros _; exact Sb|]. destruct b as [|y b]; [intros _; exact Sa|].
    inversion Sa as [|? ? Sa1 Sa2]; subst. inversion Sb as [|? ? Sb1 Sb2]; subst.
    assert (F : ch x y -> forall n', snd (merge_loop c fuel n' a (y :: b)) = true -> Sorted ch (x :: snd (fst (merge_loop c fuel n' a (y :: b))))).
    { intros Hxy n' R. constructor; [apply IH; assumption|].
      destruct (snd (fst (merge_loop c fuel n' a (y :: b)))) as [|z r] eqn:M; constructor.
      apply merge_head in M as [[a' ->]|[b' E]]; [inversion Sa2; subst; assumption|inversion E; subst; assumption]. }
    destruct (c n y x) as [[]|] eqn:E; cbn [fst snd]; intros R; try discriminate.
    - apply F; [apply rt_step; right; exists n; auto|exact R].
    - constructor; [apply IH; assumption|].
      destruct (snd (fst (merge_loop c fuel (S n) (x :: a) b))) as [|z r] eqn:M; constructor.
      apply merge_head in M as [[a' K]|[b' ->]]; [inversion K; subst|inversion Sb2; subst; assumption].
      apply rt_step. left. exists n. auto.
    - apply F; [apply rt_step; right; exists n; auto|exact R].
  Qed.
  Lemma merge_sort_perm fuel : forall n l, Permutation l (snd (fst (merge_sort c fuel n l))).
  Proof.
    induction fuel as [|fuel IH]; intros n l; cbn [merge_sort]; [reflexivity|].
    destruct (length l <=? 1); [reflexivity|]. set (k := length l / 2).
    pose proof (IH n (firstn k l)) as P1. destruct (merge_sort c fuel n (firstn k l)) as [[n1 l1] ok1]. cbn [fst snd] in *.
    rewrite <- (firstn_skipn k l) at 1. rewrite P1.
    destruct ok1; cbn [fst snd]; [|reflexivity].
    pose proof (IH n1 (skipn k l)) as P2. destruct (merge_sort c fuel n1 (skipn k l)) as [[n2 l2] ok2]. cbn [fst snd] in *.
    rewrite P2. destruct ok2; cbn [fst snd]; [|reflexivity]. apply merge_perm.
  Qed.
  Lemma short_sorted l : (length l <=? 1) = true -> Sorted ch l.
  Proof. destruct l as [|x [|y l]]; cbn; intros H; try discriminate; repeat constructor. Qed.
  Lemma merge_sort_sorted fuel : forall n l, snd (merge_sort c fuel n l) = true -> Sorted ch (snd (fst (merge_sort c fuel n l))).
  Proof.
    induction fuel as [|fuel IH]; intros n l; cbn [merge_sort]; [apply short_sorted|].
    destruct (length l <=? 1) eqn:L; [intros _; apply short_sorted, L|]. set (k := length l / 2).
    pose proof (IH n (firstn k l)) as P1. destruct (merge_sort c fuel n (firstn k l)) as [[n1 l1] ok1]. cbn [fst snd] in *.
    destruct ok1; [|discriminate].
    pose proof (IH n1 (skipn k l)) as P2. destruct (merge_sort c fuel n1 (skipn k l)) as [[n2 l2] ok2]. cbn [fst snd] in *.
    destruct ok2; [|discriminate]. apply merge_sorted; auto.
  Qed.
End Sorting.
Lemma insertion_contract : sort_contract insertion.
Proof.
  constructor; intros A c l.
  - apply (insertion_loop_perm c l 0 []).
  - apply insertion_loop_sorted. constructor.
Qed.
Lemma merging_contract : sort_contract merging.
Proof.
  constructor; intros A c l; unfold merging.
  - apply merge_sort_perm.
  - apply merge_sort_sorted.
Qed.
(** Merging is a sort: with an order that answers it always returns (the fuel suffices). *)
Lemma merge_returns {A} (c : asked A A) : (forall n x y, c n x y <> None) -> forall fuel n a b, length a + length b < fuel ->
  snd (merge_loop c fuel n a b) = true.
Proof.
  intros N. induction fuel as [|fuel IH]; intros n a b F; cbn [merge_loop]; [lia|].
  destruct a as [|x a]; [reflexivity|]. destruct b as [|y b]; [reflexivity|]. cbn [length] in F.
  specialize (N n y x). destruct (c n y x) as [[]|]; cbn [snd]; try congruence; apply IH; cbn [length]; lia.
Qed.
Lemma merge_sort_returns {A} (c : asked A A) : (forall n x y, c n x y <> None) -> forall fuel n l, length l <= fuel ->
  snd (merge_sort c fuel n l) = true.
Proof.
  intros N. induction fuel as [|fuel IH]; intros n l F; cbn [merge_sort]; [apply Nat.leb_le; lia|].
  destruct (Nat.leb_spec (length l) 1) as [L|L]; [reflexivity|].
  pose proof (div2_pos (length l) ltac:(lia)). pose proof (div2_lt (length l) ltac:(lia)). set (k := length l / 2) in *.
  assert (L1 : length (firstn k l) = k) by (apply firstn_length_le; lia). pose proof (skipn_length k l) as L2.
  pose proof (IH n (firstn k l) ltac:(lia)) as R1. pose proof (merge_sort_perm c fuel n (firstn k l)) as P1.
  destruct (merge_sort c fuel n (firstn k l)) as [[n1 l1] ok1]. cbn [fst snd] in *. subst ok1.
  pose proof (IH n1 (skipn k l) ltac:(lia)) as R2. pose proof (merge_sort_perm c fuel n1 (skipn k l)) as P2.
  destruct (merge_sort c fuel n1 (skipn k l)) as [[n2 l2] ok2]. cbn [fst snd] in *. subst ok2.
  apply merge_returns; [exact N|]. apply Permutation_length in P1, P2. lia.
Qed.
