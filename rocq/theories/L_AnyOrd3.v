(** An order that keeps the laws: the run with answers is the run of M_StatMap.v. *)
From Coq Require Import ZArith Arith List Bool Lia Sorted Permutation Relations.
From Verif Require Import M_Outcome M_Value M_Qualifier M_Search M_Stat M_StatMap M_AnyOrd
  S_Search S_StatMap S_AnyOrd L_Outcome L_Search L_StatMap L_StatMap2 L_StatMap3 L_StatMap4 L_StatMap5 L_AnyOrd L_AnyOrd2.
Import ListNotations.

Section Stable.
  Context {A K : Type}.
  Variable key : A -> K.
  Variable cmp : K -> K -> comparison.
  Hypothesis O : lawful_ord cmp.
  Notation kle := (fun a b => cmp (key a) (key b) <> Gt).
  Notation class k := (filter (fun x => match cmp (key x) k with Eq => true | _ => false end)).

  Lemma class_self x l : class (key x) (x :: l) = x :: class (key x) l.
  Proof. cbn. rewrite (proj2 (lo_eq _ O (key x) (key x)) eq_refl). reflexivity. Qed.
  Lemma class_in k x l : In x (class k l) -> In x l /\ key x = k.
  Proof.
    intros H. apply filter_In in H as [H1 H2]. split; [exact H1|]. destruct (cmp (key x) k) eqn:E; try discriminate. apply (lo_eq _ O), E.
  Qed.
  (** A sorted list is determined by the order within the classes of equal keys. *)
  Lemma stable_unique l1 : forall l2, StronglySorted kle l1 -> StronglySorted kle l2 -> (forall k, class k l1 = class k l2) -> l1 = l2.
  Proof.
    induction l1 as [|x l1 IH]; intros l2 S1 S2 E.
    - destruct l2 as [|y l2]; [reflexivity|]. specialize (E (key y)). rewrite class_self in E. discriminate.
    - destruct l2 as [|y l2]; [specialize (E (key x)); rewrite class_self in E; discriminate|].
      inversion S1 as [|? ? S1' F1]; subst. inversion S2 as [|? ? S2' F2]; subst. rewrite Forall_forall in F1, F2.
      assert (L : forall a l b m, (forall z, In z l -> kle a z) -> (forall k, class k (a :: l) = class k (b :: m)) -> kle a b).
      { intros a l b m F H. specialize (H (key b)). rewrite class_self in H.
        assert (I : In b (class (key b) (a :: l))) by (rewrite H; left; reflexivity).
        apply class_in in I as [[->|I] _]; [rewrite (proj2 (lo_eq _ O (key b) (key b)) eq_refl); discriminate|]. apply F, I. }
      pose proof (L x l1 y l2 F1 E) as Lxy. pose proof (L y l2 x l1 F2 (fun k => eq_sym (E k))) as Lyx.
      cbv beta in Lxy, Lyx. assert (Ek : key x = key y).
      { apply (lo_eq _ O). rewrite (lo_anti _ O (key x) (key y)) in Lyx. destruct (cmp (key x) (key y)); cbn in *; congruence. }
      assert (Ex : x = y). { pose proof (E (key x)) as E1. rewrite class_self, Ek, class_self in E1. inversion E1. reflexivity. }
      subst y. f_equal. apply IH; auto. intros k. specialize (E k). cbn in E. destruct (cmp (key x) k); inversion E; auto.
  Qed.

  (** Insertion keeps the order within a class. *)
  Definition steadily : asked A A := fun _ a b => Some (cmp (key a) (key b)).
  Lemma filter_rev {B} (f : B -> bool) l : filter f (rev l) = rev (filter f l).
  Proof. induction l as [|x l IH]; cbn; [reflexivity|]. rewrite filter_app, IH. cbn. destruct (f x); cbn; [reflexivity|apply app_nil_r]. Qed.
  Lemma rev_insert_class k l : forall n x, class k (snd (fst (rev_insert steadily n x l))) = class k (x :: l) /\ snd (rev_insert steadily n x l) = true.
  Proof.
    induction l as [|y l IH]; intros n x; cbn [rev_insert]; [auto|]. change (steadily n x y) with (Some (cmp (key x) (key y))).
    destruct (cmp (key x) (key y)) eqn:E; cbn [fst snd]; auto. destruct (IH (S n) x) as [I1 I2]. split; [|exact I2].
    cbn [filter] in *. rewrite I1. destruct (cmp (key x) k) eqn:Ex; [|reflexivity|reflexivity].
    destruct (cmp (key y) k) eqn:Ey; try reflexivity. apply (lo_eq _ O) in Ex, Ey. rewrite Ex, Ey in E.
    rewrite (proj2 (lo_eq _ O k k) eq_refl) in E. discriminate.
  Qed.
  Lemma insertion_class k todo : forall n dn, class k (fst (insertion_loop steadily n dn todo)) = class k (rev dn ++ todo) /\
    snd (insertion_loop steadily n dn todo) = true.
  Proof.
    induction todo as [|x todo IH]; intros n dn; cbn [insertion_loop]; [rewrite app_nil_r; auto|].
    destruct (rev_insert_class k dn n x) as [H1 H2]. destruct (rev_insert steadily n x dn) as [[n' r] ok]. cbn [fst snd] in *. subst ok.
    destruct (IH n' r) as [I1 I2]. split; [|exact I2]. rewrite I1, !filter_app, !filter_rev, H1. cbn [filter].
    destruct (cmp (key x) k); try reflexivity. cbn [rev]. rewrite <- app_assoc. reflexivity.
  Qed.
  Lemma rev_insert_true l : forall n x, snd (rev_insert steadily n x l) = true.
  Proof.
    induction l as [|y l IH]; intros n x; cbn [rev_insert]; [reflexivity|]. change (steadily n x y) with (Some (cmp (key x) (key y))).
    destruct (cmp (key x) (key y)); cbn [snd]; auto.
  Qed.
  Lemma insertion_true todo : forall n dn, snd (insertion_loop steadily n dn todo) = true.
  Proof.
    induction todo as [|x todo IH]; intros n dn; cbn [insertion_loop]; [reflexivity|]. rewrite rev_insert_true. apply IH.
  Qed.
  Lemma steadily_sorted l : Sorted (clos_refl_trans A (said steadily)) l -> StronglySorted kle l.
  Proof.
    intros H. apply Sorted_StronglySorted in H; [|intros x y z; apply rt_trans].
    assert (T : forall x y z, cmp x y <> Gt -> cmp y z <> Gt -> cmp x z <> Gt).
    { intros x y z H1 H2. destruct (cmp x y) eqn:E1; [apply (lo_eq _ O) in E1; subst; exact H2| |congruence].
      destruct (cmp y z) eqn:E2; [apply (lo_eq _ O) in E2; subst; congruence| |congruence].
      rewrite (lo_trans _ O _ _ _ E1 E2). discriminate. }
    induction H as [|x m H IH F]; constructor; [exact IH|]. eapply Forall_impl; [|exact F].
    intros y R. clear -R O T. induction R as [x y R|x|x y z _ IH1 _ IH2].
    - destruct R as [[n [R|R]]|[n [R|R]]]; unfold steadily in R; inversion R as [R']; try congruence; rewrite (lo_anti _ O (key y) (key x)), R'; discriminate.
    - rewrite (proj2 (lo_eq _ O (key x) (key x)) eq_refl). discriminate.
    - eapply T; eassumption.
  Qed.
End Stable.

Section Lawful.
  Context {P : Prog} {Q : QFlag}.
  Variable sr : searcher.
  Hypothesis C : search_contract sr.
  Hypothesis D : distinct_vtables P.
  Hypothesis OQ : lawful_ord (q_cmp Q).
  Notation map_t := (map_t P Q).
  Notation bs := (pure_search sr).

  Lemma steady_search (m : map_t) q s : any_search sr steady m q s = Some (search bs m q s).
  Proof.
    unfold any_search, search, pure_search. rewrite map_length.
    assert (E : forall n i, i < length m ->
      match nth_error m i with Some e => any_key_cmp steady n (e_stat e) (e_qual e) s q | None => None end =
      Some (at_cmp (map (fun e => key_cmp (e_stat e) (e_qual e) s q) m) i)).
    { intros n i L. unfold at_cmp. pose proof (nth_error_map (fun e : entry P Q (buffer P) => key_cmp (e_stat e) (e_qual e) s q) i m) as N.
      destruct (nth_error m i) as [e|] eqn:Ei; [|apply nth_error_None in Ei; lia]. cbn in N. rewrite (nth_error_nth _ _ _ N).
      unfold any_key_cmp, key_cmp, steady. destruct (inst_cmp (e_stat e) s); reflexivity. }
    rewrite (sc_elements _ C _ _ _ E).
    pose proof (sc_returns _ C (fun _ i => Some (at_cmp (map (fun e => key_cmp (e_stat e) (e_qual e) s q) m) i)) (length m)) as R.
    destruct (sr _ (length m)); [reflexivity|]. exfalso. apply R; [discriminate|reflexivity].
  Qed.
  Lemma rev_insert_ext {A} (c c' : asked A A) : (forall n a b, c n a b = c' n a b) -> forall l n x, rev_insert c n x l = rev_insert c' n x l.
  Proof.
    intros E. induction l as [|y l IH]; intros n x; cbn [rev_insert]; [reflexivity|]. rewrite E. destruct (c' n x y) as [[]|]; try reflexivity.
    rewrite IH. reflexivity.
  Qed.
  Lemma insertion_ext {A} (c c' : asked A A) : (forall n a b, c n a b = c' n a b) -> forall todo n dn, insertion_loop c n dn todo = insertion_loop c' n dn todo.
  Proof.
    intros E. induction todo as [|x todo IH]; intros n dn; cbn [insertion_loop]; [reflexivity|]. rewrite (rev_insert_ext c c' E), IH. reflexivity.
  Qed.
  Lemma steady_sort (l : map_t) : insertion _ (any_entry_cmp steady) l = (sort l, true).
  Proof.
    pose proof (@kcmp_ord P Q D OQ) as O. unfold insertion.
    rewrite (insertion_ext _ (steadily (@ekey P Q (buffer P)) (@kcmp P Q))).
    2:{ intros n [s q v] [s' q' v']. unfold any_entry_cmp, steadily, steady, ekey, kcmp, lex. cbn. destruct (inst_cmp s s'); reflexivity. }
    pose proof (fun k => proj1 (insertion_class (@ekey P Q (buffer P)) (@kcmp P Q) O k l 0 [])) as H.
    pose proof (insertion_true (@ekey P Q (buffer P)) (@kcmp P Q) l 0 []) as T.
    pose proof (insertion_loop_sorted (steadily (@ekey P Q (buffer P)) (@kcmp P Q)) l 0 [] ltac:(constructor)) as S.
    destruct (insertion_loop (steadily ekey kcmp) 0 [] l) as [r ok]. cbn [fst snd] in *. subst ok.
    f_equal. apply (stable_unique (@ekey P Q (buffer P)) (@kcmp P Q) O).
    - apply steadily_sorted; auto.
    - pose proof (sort_sorted D OQ l) as W. unfold sorted in W. clear -W. induction W as [|x m W IH F]; constructor; [exact IH|].
      eapply Forall_impl; [|exact F]. intros y Hy. rewrite <- entry_cmp_eq. exact Hy.
    - intros k. rewrite H. cbn [rev app]. symmetry. apply (sort_filter D OQ).
  Qed.
  Lemma steady_cop (m : map_t) o : any_cop sr insertion steady m o = let! x := cop_run bs m o in Done (Some (x, true)).
  Proof.
    assert (Eb : forall q s o, match o with CPut q' s' _ | CUpdate q' s' _ | CUpsert q' s' _ _ | CTake q' s' => q' = q /\ s' = s | _ => False end ->
      cop_run (fun _ => search bs m q s) m o = cop_run bs m o).
    { intros q s o' Ho. destruct o'; try destruct Ho; subst; reflexivity. }
    destruct o as [q s v|q s f|q s f d|q s|s|s f| |l]; cbn [any_cop].
    - destruct v as [v|p| |]; try reflexivity. cbn [obind]. rewrite steady_search, Eb by (split; reflexivity). reflexivity.
    - rewrite steady_search, Eb by (split; reflexivity). reflexivity.
    - rewrite steady_search, Eb by (split; reflexivity). reflexivity.
    - rewrite steady_search, Eb by (split; reflexivity). reflexivity.
    - reflexivity.
    - reflexivity.
    - reflexivity.
    - destruct l as [l|p| |]; try reflexivity. cbn [obind cop_run]. rewrite steady_sort. reflexivity.
  Qed.
  Lemma steady_step (m : map_t) o k : any_step sr insertion m (ACall o steady k) = let! x := mop_run bs m o in Done (x_map x).
  Proof.
    unfold any_step, any_mop, mop_run. cbn [a_order a_op a_catch]. rewrite steady_cop.
    destruct (cop_run bs m (mop_core o)) as [x|p| |]; cbn [obind]; try reflexivity. destruct o; try reflexivity.
    - destruct (x_returned x) as [b|]; [|reflexivity]. destruct (buf_read_move P _ b); reflexivity.
    - destruct (slice bs m s) as [l|p| |]; cbn [obind]; try reflexivity. destruct (drop_all l); reflexivity.
    - destruct (drop_all m); reflexivity.
  Qed.
  Lemma steady_run l : forall (m : map_t) k, any_run sr insertion m (map (fun o => ACall o steady k) l) = mops_run bs m l.
  Proof.
    induction l as [|o l IH]; intros m k; cbn [any_run map mops_run]; [reflexivity|]. rewrite steady_step.
    destruct (mop_run bs m o) as [x|p| |]; cbn [obind]; try reflexivity. apply IH.
  Qed.
End Lawful.
