From Coq Require Import List Permutation.
From Verif Require Import M_Outcome.
Import ListNotations.

Lemma obind_assoc {A B C} (m : outcome A) (f : A -> outcome B) (g : B -> outcome C) :
  obind (obind m f) g = obind m (fun a => obind (f a) g).
Proof. destruct m; reflexivity. Qed.

Lemma obind_Done {A} (m : outcome A) : obind m Done = m.
Proof. destruct m; reflexivity. Qed.

Lemma obind_ext {A B} (m : outcome A) (f g : A -> outcome B) :
  (forall a, m = Done a -> f a = g a) -> obind m f = obind m g.
Proof. destruct m; cbn; auto. Qed.

Lemma obind_inv {A B} (m : outcome A) (f : A -> outcome B) b :
  obind m f = Done b -> exists a, m = Done a /\ f a = Done b.
Proof. destruct m; cbn; intros H; try discriminate. eauto. Qed.

Lemma omap_inv {A B} (f : A -> B) (m : outcome A) b :
  omap f m = Done b -> exists a, m = Done a /\ f a = b.
Proof. unfold omap. intros H. apply obind_inv in H. destruct H as [a [H1 H2]]. inversion H2. eauto. Qed.

Lemma ofold_app {A B} (f : A -> B -> outcome A) a l l' :
  ofold f a (l ++ l') = let! x := ofold f a l in ofold f x l'.
Proof.
  revert a. induction l as [|b l IH]; intros a; cbn; [reflexivity|].
  rewrite obind_assoc. apply obind_ext. intros a' _. apply IH.
Qed.

(** Permuting the list of a fold does not matter if steps commute on all states satisfying an
    invariant [P] and all elements satisfying [E]. *)
Lemma ofold_perm_inv {A B} (f : A -> B -> outcome A) (P : A -> Prop) (E : B -> Prop) :
  (forall a b a', P a -> E b -> f a b = Done a' -> P a') ->
  (forall a b c, P a -> E b -> E c ->
     (let! x := f a b in f x c) = (let! x := f a c in f x b)) ->
  forall l l', Permutation l l' -> Forall E l ->
  forall a, P a -> ofold f a l = ofold f a l'.
Proof.
  intros Hpres Hcomm l l' HP. induction HP; intros HE a Ha.
  - reflexivity.
  - cbn. inversion HE; subst. apply obind_ext. intros a' Ha'. apply IHHP; eauto.
  - cbn. inversion HE as [|? ? H1 H2]; subst. inversion H2; subst.
    rewrite <- !obind_assoc, (Hcomm a y x) by assumption. reflexivity.
  - rewrite IHHP1 by assumption. apply IHHP2; [|assumption].
    eapply Permutation_Forall; eassumption.
Qed.

Lemma ofold_perm {A B} (f : A -> B -> outcome A) :
  (forall a b c, (let! x := f a b in f x c) = (let! x := f a c in f x b)) ->
  forall l l', Permutation l l' -> forall a, ofold f a l = ofold f a l'.
Proof.
  intros Hcomm l l' HP a.
  apply (ofold_perm_inv f (fun _ => True) (fun _ => True)); auto.
  apply Forall_forall. auto.
Qed.

(** If successful steps compute a function of the state whose steps commute, then two successful
    permuted folds agree. *)
Lemma ofold_exact {A B C} (f : A -> B -> outcome A) (abs : A -> C) (g : C -> B -> C)
    (P : A -> Prop) (E : B -> Prop) :
  (forall a b a', P a -> E b -> f a b = Done a' -> P a' /\ abs a' = g (abs a) b) ->
  forall l a r, Forall E l -> P a -> ofold f a l = Done r -> P r /\ abs r = fold_left g l (abs a).
Proof.
  intros H l. induction l as [|b l IH]; intros a r HE HP HR; cbn in *.
  - inversion HR; subst. auto.
  - inversion HE as [|? ? HEb HEl]; subst. apply obind_inv in HR. destruct HR as [a' [HR1 HR2]].
    destruct (H _ _ _ HP HEb HR1) as [H5 H6]. rewrite <- H6. apply IH; assumption.
Qed.

Lemma fold_left_perm {A B} (g : A -> B -> A) :
  (forall a b c, g (g a b) c = g (g a c) b) ->
  forall l l', Permutation l l' -> forall a, fold_left g l a = fold_left g l' a.
Proof.
  intros Hc l l' HP. induction HP; intros a; cbn; auto.
  - rewrite Hc. reflexivity.
  - rewrite IHHP1. apply IHHP2.
Qed.
