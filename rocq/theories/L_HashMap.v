From Coq Require Import List Bool Permutation.
From Verif Require Import M_HashMap.
Import ListNotations.

Section L.
  Context {K V : Type} (eqb : K -> K -> bool).
  Hypothesis eqb_ok : forall a b, eqb a b = true <-> a = b.
  Implicit Types m : hmap K V.

  Lemma eqb_refl k : eqb k k = true.
  Proof. apply eqb_ok. reflexivity. Qed.
  Lemma eqb_neq a b : a <> b -> eqb a b = false.
  Proof. intros H. destruct (eqb a b) eqn:E; [|reflexivity]. apply eqb_ok in E. contradiction. Qed.
  Lemma eqb_dec (a b : K) : {a = b} + {a <> b}.
  Proof. destruct (eqb a b) eqn:E; [left; apply eqb_ok, E|right; intros H; apply eqb_ok in H; congruence]. Qed.

  Lemma hget_hput_same m k v : hget eqb (fst (hput eqb m k v)) k = Some v.
  Proof.
    induction m as [|[k' v'] m IH]; cbn; [rewrite eqb_refl; reflexivity|].
    destruct (eqb k' k) eqn:E; cbn; [rewrite E; reflexivity|].
    destruct (hput eqb m k v) as [r o]. cbn in *. rewrite E. exact IH.
  Qed.
  Lemma hget_hput_other m k v k0 : k0 <> k -> hget eqb (fst (hput eqb m k v)) k0 = hget eqb m k0.
  Proof.
    intros H. induction m as [|[k' v'] m IH]; cbn; [rewrite eqb_neq by congruence; reflexivity|].
    destruct (eqb k' k) eqn:E; cbn.
    - apply eqb_ok in E. subst. rewrite eqb_neq by congruence. reflexivity.
    - destruct (hput eqb m k v) as [r o]. cbn in *. rewrite IH. reflexivity.
  Qed.
  Lemma hput_old m k v : snd (hput eqb m k v) = hget eqb m k.
  Proof.
    induction m as [|[k' v'] m IH]; cbn; [reflexivity|].
    destruct (eqb k' k); [reflexivity|]. destruct (hput eqb m k v). exact IH.
  Qed.
  Lemma hget_hset_same m k v v0 : hget eqb m k = Some v0 -> hget eqb (hset eqb m k v) k = Some v.
  Proof.
    induction m as [|[k' v'] m IH]; cbn; [discriminate|].
    destruct (eqb k' k) eqn:E; cbn; rewrite E; [reflexivity|exact IH].
  Qed.
  Lemma hget_hset_other m k v k0 : k0 <> k -> hget eqb (hset eqb m k v) k0 = hget eqb m k0.
  Proof.
    intros H. induction m as [|[k' v'] m IH]; cbn; [reflexivity|].
    destruct (eqb k' k) eqn:E; cbn; [|rewrite IH; reflexivity].
    apply eqb_ok in E. subst. rewrite eqb_neq by congruence. reflexivity.
  Qed.
  Lemma hput_keys m k v : map fst (fst (hput eqb m k v)) = if hget eqb m k then map fst m else map fst m ++ [k].
  Proof.
    induction m as [|[k' v'] m IH]; cbn; [reflexivity|].
    destruct (eqb k' k) eqn:E; cbn; [reflexivity|].
    destruct (hput eqb m k v). cbn in *. rewrite IH. destruct (hget eqb m k); reflexivity.
  Qed.
  Lemma hset_keys m k v : map fst (hset eqb m k v) = map fst m.
  Proof. induction m as [|[k' v'] m IH]; cbn; [reflexivity|]. destruct (eqb k' k); cbn; [|rewrite IH]; reflexivity. Qed.
  Lemma hget_in m k v : hget eqb m k = Some v -> In (k, v) m.
  Proof.
    induction m as [|[k' v'] m IH]; cbn; [discriminate|]. destruct (eqb k' k) eqn:E; [|auto].
    intros H. injection H as ->. apply eqb_ok in E. subst. left. reflexivity.
  Qed.
  Lemma hget_none m k : hget eqb m k = None <-> ~ In k (map fst m).
  Proof.
    induction m as [|[k' v'] m IH]; cbn; [tauto|]. destruct (eqb k' k) eqn:E.
    - apply eqb_ok in E. subst. split; [discriminate|]. intros H. exfalso. apply H. left. reflexivity.
    - rewrite IH. split; [|tauto]. intros H [H1|H1]; [|tauto]. subst. rewrite eqb_refl in E. discriminate.
  Qed.
  Lemma hget_nodup m k v : NoDup (map fst m) -> In (k, v) m -> hget eqb m k = Some v.
  Proof.
    induction m as [|[k' v'] m IH]; cbn; [contradiction|]. intros Hn [H|H].
    - injection H as -> ->. rewrite eqb_refl. reflexivity.
    - inversion Hn; subst. rewrite eqb_neq; [auto|]. intros ->. apply H2. apply (in_map fst) in H. exact H.
  Qed.
  Lemma hput_nodup m k v : NoDup (map fst m) -> NoDup (map fst (fst (hput eqb m k v))).
  Proof.
    intros H. rewrite hput_keys. destruct (hget eqb m k) eqn:E; [exact H|].
    apply hget_none in E. apply NoDup_rev in H. rewrite <- (rev_involutive (map fst m ++ [k])).
    apply NoDup_rev. rewrite rev_app_distr. cbn. constructor; [|exact H]. rewrite <- in_rev. exact E.
  Qed.
  Definition olist (o : option V) : list V := match o with Some v => [v] | None => [] end.
  Lemma hput_perm m k v : Permutation (v :: map snd m) (map snd (fst (hput eqb m k v)) ++ olist (snd (hput eqb m k v))).
  Proof.
    induction m as [|[k' v'] m IH]; cbn; [reflexivity|]. destruct (eqb k' k); cbn.
    - apply perm_skip. apply Permutation_cons_append.
    - destruct (hput eqb m k v) as [r o]. cbn in *. rewrite perm_swap. apply perm_skip. exact IH.
  Qed.
End L.
