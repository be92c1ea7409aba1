From Coq Require Import ZArith Arith List Bool Lia Sorted Permutation Eqdep_dec.
From Verif Require Import M_Outcome M_Value M_Qualifier M_Search M_Stat M_StatMap
  S_Search S_StatMap L_Outcome L_Search L_StatMap L_StatMap2.
Import ListNotations.

Lemma skipn_add {A} x y (l : list A) : skipn y (skipn x l) = skipn (x + y) l.
Proof.
  revert l. induction x as [|x IH]; intros l; [reflexivity|]. destruct l as [|e l]; cbn [skipn Nat.add].
  - destruct y; reflexivity.
  - apply IH.
Qed.
Lemma perm6 {A} (a b c a' b' c' : list A) :
  Permutation (a' ++ b' ++ c' ++ a ++ b ++ c) (a ++ a' ++ b ++ b' ++ c ++ c').
Proof.
  rewrite (Permutation_app_swap_app c' a), (Permutation_app_swap_app b' a), (Permutation_app_swap_app a' a).
  do 2 apply Permutation_app_head.
  rewrite (Permutation_app_swap_app c' b), (Permutation_app_swap_app b' b). do 2 apply Permutation_app_head.
  apply Permutation_app_comm.
Qed.

(** ** Buffers *)
Section Buffers.
  Variable P : Prog.
  Lemma cast_val_same t (v : val (VT P t)) : cast_val P t (Buf t v) = Done v.
  Proof.
    unfold cast_val. cbn. destruct (vty_dec P t t) as [e|n]; [|congruence].
    rewrite (UIP_dec (vty_dec P) e eq_refl). reflexivity.
  Qed.
  Lemma buf_ty_inv t (b : buffer P) : b_ty b = t -> exists v, b = Buf t v.
  Proof. destruct b as [t' v]. cbn. intros <-. eauto. Qed.
  Lemma Buf_inj t (v w : val (VT P t)) : Buf t v = Buf t w -> v = w.
  Proof. intros H. apply (f_equal (cast_val P t)) in H. rewrite !cast_val_same in H. congruence. Qed.

  Definition ok_ty (t : vty P) : Prop := validate_ty P t = Done tt.
  (** A buffer of stat [s] holds a value of the type of [s]. *)
  Definition ok_buf (s : inst P) (b : buffer P) : Prop :=
    b_ty b = vt_value P (si_ty s) /\ ok_ty (vt_value P (si_ty s)).
  Lemma ok_buf_inv s b : ok_buf s b -> exists v, b = Buf (vt_value P (si_ty s)) v /\ ok_ty (vt_value P (si_ty s)).
  Proof. intros [H1 H2]. destruct (buf_ty_inv _ _ H1) as [v ->]. eauto. Qed.
  Lemma ok_buf_Buf (s : inst P) v : ok_ty (vt_value P (si_ty s)) -> ok_buf s (Buf (vt_value P (si_ty s)) v).
  Proof. intros H. split; [reflexivity|exact H]. Qed.

  Lemma buf_from_inv t v b : buf_from P t v = Done b -> b = Buf t v /\ ok_ty t.
  Proof.
    unfold buf_from, ok_ty. destruct (validate_ty P t) as [[]|p| |]; cbn; intros H; inversion H; auto.
  Qed.
  Lemma validate_not_ub t : validate_ty P t <> UB.
  Proof. unfold validate_ty, validate. destruct (_ || _); [destruct (24 <? _)%Z|]; discriminate. Qed.
  Lemma buf_from_not_ub t v : buf_from P t v <> UB.
  Proof. unfold buf_from. pose proof (validate_not_ub t). destruct (validate_ty P t); cbn; congruence. Qed.
  Lemma buf_from_ok t v : ok_ty t -> buf_from P t v = Done (Buf t v).
  Proof. unfold ok_ty, buf_from. intros ->. reflexivity. Qed.
  Lemma buf_ref_ok t v : ok_ty t -> buf_ref P t (Buf t v) = Done v.
  Proof. unfold ok_ty, buf_ref. intros ->. cbn. apply cast_val_same. Qed.
  Lemma buf_mut_ok t v f : ok_ty t -> buf_mut P t (Buf t v) f = let! v' := f v in Done (Buf t v').
  Proof. intros H. unfold buf_mut. rewrite buf_ref_ok by exact H. reflexivity. Qed.
  Lemma vt_join_ok s v w : ok_ty (vt_value P s) ->
    vt_join P s (Buf (vt_value P s) v) (Buf (vt_value P s) w) = let! r := sv_join (VT P (vt_value P s)) v w in Done (Buf (vt_value P s) r).
  Proof. unfold ok_ty, vt_join. intros ->. cbn [obind]. rewrite !cast_val_same. reflexivity. Qed.
  Lemma vt_clone_ok s v : ok_ty (vt_value P s) -> vt_clone P s (Buf (vt_value P s) v) = Done (Buf (vt_value P s) v).
  Proof. intros H. unfold vt_clone. rewrite buf_ref_ok by exact H. cbn. apply buf_from_ok, H. Qed.
  Lemma vt_drop_ok s v : ok_ty (vt_value P s) -> vt_drop P s (Buf (vt_value P s) v) = Done tt.
  Proof. intros H. unfold vt_drop, buf_read_move. rewrite buf_ref_ok by exact H. reflexivity. Qed.
End Buffers.

Section Typed.
  Context {P : Prog} {Q : QFlag}.
  Variable bs : list comparison -> bsres.
  Hypothesis C : bs_contract bs.
  Hypothesis D : distinct_vtables P.
  Hypothesis OQ : lawful_ord (q_cmp Q).
  Notation statmap V := (statmap P Q V).
  Notation map_t := (map_t P Q).
  Notation tyof s := (vt_value P (si_ty s)).
  Notation VS s := (VT P (tyof s)).
  Notation kcmp := (@kcmp P Q).

  (** ** Positions, for any contents *)
  Lemma search_found {V} (m : statmap V) q s i : search bs m q s = inl i ->
    exists a e c, m = a ++ e :: c /\ length a = i /\ ekey e = (s, q).
  Proof.
    unfold search. intros H. pose proof (bc_ok _ C _ _ H) as H2.
    rewrite nth_error_map in H2. destruct (nth_error m i) as [e|] eqn:E; [|discriminate]. cbn in H2.
    apply nth_error_split in E as [a [c [-> L]]]. exists a, e, c. split; [reflexivity|]. split; [exact L|].
    apply (lo_eq _ (@kcmp_ord P Q D OQ)). unfold ekey. rewrite <- key_cmp_eq. congruence.
  Qed.
  Lemma search_missing {V} (m : statmap V) q s i : search bs m q s = inr i -> exists a c, m = a ++ c /\ length a = i.
  Proof.
    unfold search. intros H. pose proof (bc_range _ C _ _ H) as R. rewrite map_length in R.
    exists (firstn i m), (skipn i m). split; [symmetry; apply firstn_skipn|apply firstn_length_le, R].
  Qed.
  Lemma put_any {V} (m : statmap V) q s v :
    (exists a e c, m = a ++ e :: c /\ ekey e = (s, q) /\ put bs m q s v = Done (a ++ Entry s q v :: c, [e_val e])) \/
    (exists a c, m = a ++ c /\ search bs m q s = inr (length a) /\ put bs m q s v = Done (a ++ Entry s q v :: c, [])).
  Proof.
    unfold put. destruct (search bs m q s) as [i|i] eqn:E.
    - left. destruct (search_found m q s i E) as [a [e [c [-> [<- K]]]]]. exists a, e, c.
      split; [reflexivity|]. split; [exact K|]. rewrite vec_get_app. cbn [obind]. rewrite vec_set_app. cbn [obind].
      unfold ekey in K. inversion K; subst. reflexivity.
    - right. destruct (search_missing m q s i E) as [a [c [-> <-]]]. exists a, c.
      split; [reflexivity|]. split; [reflexivity|]. rewrite vec_insert_app. reflexivity.
  Qed.
  Lemma update_any {V} (m : statmap V) q s f :
    (exists a e c, m = a ++ e :: c /\ ekey e = (s, q) /\ update bs m q s f = let! v := f (e_val e) in Done (a ++ Entry s q v :: c)) \/
    update bs m q s f = Done m.
  Proof.
    unfold update. destruct (search bs m q s) as [i|i] eqn:E; [left|right; reflexivity].
    destruct (search_found m q s i E) as [a [e [c [-> [<- K]]]]]. exists a, e, c.
    split; [reflexivity|]. split; [exact K|]. rewrite vec_get_app. cbn [obind]. apply obind_ext. intros v _. rewrite vec_set_app.
    unfold ekey in K. inversion K; subst. reflexivity.
  Qed.
  Lemma upsert_any {V} (m : statmap V) q s f d :
    (exists a e c, m = a ++ e :: c /\ ekey e = (s, q) /\ upsert bs m q s f d = let! v := f (e_val e) in Done (a ++ Entry s q v :: c, [])) \/
    (exists a c, m = a ++ c /\ search bs m q s = inr (length a) /\ upsert bs m q s f d = let! v := d in Done (a ++ Entry s q v :: c, [v])).
  Proof.
    unfold upsert. destruct (search bs m q s) as [i|i] eqn:E; [left|right].
    - destruct (search_found m q s i E) as [a [e [c [-> [<- K]]]]]. exists a, e, c.
      split; [reflexivity|]. split; [exact K|]. rewrite vec_get_app. cbn [obind]. apply obind_ext. intros v _. rewrite vec_set_app.
      unfold ekey in K. inversion K; subst. reflexivity.
    - destruct (search_missing m q s i E) as [a [c [-> <-]]]. exists a, c.
      split; [reflexivity|]. split; [reflexivity|]. apply obind_ext. intros v _. rewrite vec_insert_app. reflexivity.
  Qed.
  Lemma take_any {V} (m : statmap V) q s :
    (exists a e c, m = a ++ e :: c /\ ekey e = (s, q) /\ take bs m q s = Done (a ++ c, Some (e_val e))) \/
    take bs m q s = Done (m, None).
  Proof.
    unfold take. destruct (search bs m q s) as [i|i] eqn:E; [left|right; reflexivity].
    destruct (search_found m q s i E) as [a [e [c [-> [<- K]]]]]. exists a, e, c.
    split; [reflexivity|]. split; [exact K|]. rewrite vec_remove_app. reflexivity.
  Qed.
  Lemma find_any {V} (m : statmap V) q s :
    (exists e, In e m /\ ekey e = (s, q) /\ find bs m q s = Done (Some (e_val e))) \/ find bs m q s = Done None.
  Proof.
    unfold find. destruct (search bs m q s) as [i|i] eqn:E; [left|right; reflexivity].
    destruct (search_found m q s i E) as [a [e [c [-> [<- K]]]]]. exists e.
    split; [apply in_elt|]. split; [exact K|]. rewrite vec_get_app. reflexivity.
  Qed.
  Lemma cut_any {V} (m : statmap V) s r : cut bs m s = Done r -> m = fst (fst r) ++ snd (fst r) ++ snd r.
  Proof.
    unfold cut. destruct (_ <=? _) eqn:E1; cbn [andb]; [|discriminate]. destruct (slice_snd bs m s <=? length m) eqn:E2; [|discriminate].
    intros H. inversion H; subst. cbn [fst snd]. apply Nat.leb_le in E1.
    rewrite <- (firstn_skipn (slice_fst bs m s) m) at 1. f_equal.
    rewrite <- (firstn_skipn (slice_snd bs m s - slice_fst bs m s) (skipn (slice_fst bs m s) m)) at 1. f_equal.
    rewrite skipn_add. f_equal. lia.
  Qed.

  (** ** Ownership, for any contents *)
  Lemma cop_owned_any {V I} (g : V -> I) (m : statmap V) o x : keeps g o -> cop_run bs m o = Done x ->
    Permutation (map g (x_in x) ++ ids g m)
      (ids g (x_map x) ++ map g (olist (x_returned x)) ++ map g (x_dropped x) ++ map g (x_leaked x)) /\
    match o with
    | CPut q s _ => x_leaked x = [] \/ exists v, In (Entry s q v) m /\ x_leaked x = [v]
    | _ => x_leaked x = []
    end.
  Proof.
    intros K R. unfold ids. destruct o as [q s v|q s f|q s f d|q s|s|s f| |l]; cbn in R, K.
    - destruct v as [v|p| |]; try discriminate. cbn in R.
      destruct (put_any m q s v) as [[a [e [c [-> [E H]]]]]|[a [c [-> [E H]]]]]; rewrite H in R; cbn in R; inversion R; subst; cbn.
      + split.
        * rewrite !map_app. cbn. rewrite <- app_assoc. cbn.
          rewrite (Permutation_middle _ _ (g v)). apply Permutation_app_head. constructor. apply Permutation_cons_append.
        * right. exists (e_val e). split; [|reflexivity]. unfold ekey in E. inversion E; subst. destruct e; apply in_elt.
      + split; [|auto]. rewrite app_nil_r, !map_app. cbn. apply Permutation_middle.
    - destruct (update_any m q s f) as [[a [e [c [-> [E H]]]]]|H]; rewrite H in R.
      + destruct (f (e_val e)) as [v'|p| |] eqn:F; try discriminate. cbn in R. inversion R; subst. cbn.
        rewrite app_nil_r, !map_app. cbn. rewrite (K _ _ F). split; reflexivity.
      + cbn in R. inversion R; subst. cbn. rewrite app_nil_r. split; reflexivity.
    - destruct (upsert_any m q s f d) as [[a [e [c [-> [E H]]]]]|[a [c [-> [E H]]]]]; rewrite H in R.
      + destruct (f (e_val e)) as [v'|p| |] eqn:F; try discriminate. cbn in R. inversion R; subst. cbn.
        rewrite app_nil_r, !map_app. cbn. rewrite (K _ _ F). split; reflexivity.
      + destruct d as [v|p| |]; try discriminate. cbn in R. inversion R; subst. cbn.
        rewrite app_nil_r, !map_app. cbn. split; [|reflexivity]. apply Permutation_middle.
    - destruct (take_any m q s) as [[a [e [c [-> [E H]]]]]|H]; rewrite H in R; cbn in R; inversion R; subst; cbn.
      + split; [|reflexivity]. rewrite !map_app. cbn. rewrite <- app_assoc. apply Permutation_app_head. apply Permutation_cons_append.
      + rewrite app_nil_r. split; reflexivity.
    - unfold drain in R. destruct (cut bs m s) as [[[a b] c]|p| |] eqn:E; try discriminate.
      cbn in R. inversion R; subst. cbn. split; [|reflexivity]. apply cut_any in E. cbn in E. subst m.
      rewrite app_nil_r, !map_app, map_map, <- app_assoc. apply Permutation_app_head. apply Permutation_app_comm.
    - unfold update_slice in R. destruct (cut bs m s) as [[[a b] c]|p| |] eqn:E; try discriminate. cbn in R.
      destruct (update_each f b) as [b'|p| |] eqn:F; try discriminate. cbn in R. inversion R; subst. cbn. split; [|reflexivity].
      apply cut_any in E. cbn in E. subst m. rewrite app_nil_r, !map_app, (update_each_ids g f b b' K F). reflexivity.
    - inversion R; subst. cbn. rewrite app_nil_r, map_map. split; reflexivity.
    - destruct l as [l|p| |]; try discriminate. cbn in R. inversion R; subst. cbn. split; [|reflexivity].
      rewrite app_nil_r, map_map. rewrite Permutation_app_comm, <- map_app. apply Permutation_map. symmetry. apply sort_perm.
  Qed.
  Lemma cops_owned {V I} (g : V -> I) l : forall (m : statmap V) m' xs, Forall (keeps g) l -> cops_run bs m l = Done (m', xs) ->
    Permutation (map g (concat (map (@x_in P Q V) xs)) ++ ids g m)
      (ids g m' ++ map g (concat (map (fun x => olist (x_returned x)) xs)) ++
       map g (concat (map (@x_dropped P Q V) xs)) ++ map g (concat (map (@x_leaked P Q V) xs))).
  Proof.
    induction l as [|o l IH]; intros m m' xs K R; cbn in R.
    - inversion R; subst. cbn. rewrite app_nil_r. reflexivity.
    - inversion K; subst. destruct (cop_run bs m o) as [x|p| |] eqn:E; try discriminate. cbn in R.
      destruct (cops_run bs (x_map x) l) as [[m2 xs2]|p| |] eqn:E2; try discriminate. cbn in R. inversion R; subst.
      destruct (cop_owned_any g m o x H1 E) as [H _]. specialize (IH _ _ _ H2 E2). cbn [map concat]. rewrite !map_app.
      rewrite (Permutation_app_comm (map g (x_in x))), <- app_assoc, H.
      rewrite app_assoc, IH. rewrite <- !app_assoc. apply Permutation_app_head.
      set (a := map g (olist (x_returned x))). set (b := map g (x_dropped x)). set (c := map g (x_leaked x)).
      set (a' := map g (concat (map (fun x => olist (x_returned x)) xs2))). set (b' := map g (concat (map (@x_dropped P Q V) xs2))).
      set (c' := map g (concat (map (@x_leaked P Q V) xs2))).
      apply perm6.
  Qed.
End Typed.
