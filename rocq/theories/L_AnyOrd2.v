(** Proofs about maps whose flags have an order that keeps no law. *)
From Coq Require Import ZArith Arith List Bool Lia Sorted Permutation Relations.
From Verif Require Import M_Outcome M_Value M_Qualifier M_Search M_Stat M_StatMap M_AnyOrd
  S_Search S_StatMap S_AnyOrd L_Outcome L_Search L_StatMap L_StatMap2 L_StatMap3 L_StatMap4 L_StatMap5 L_AnyOrd.
Import ListNotations.

Lemma obind_done {A} (m : outcome A) : obind m Done = m. Proof. destruct m; reflexivity. Qed.

Section AnyOrd.
  Context {P : Prog} {Q : QFlag}.
  Variable sr : searcher.
  Variable srt : sorter.
  Hypothesis C : search_contract sr.
  Hypothesis K : sort_contract srt.
  Hypothesis D : distinct_vtables P.
  Notation entry := (entry P Q (buffer P)).
  Notation map_t := (map_t P Q).
  Notation tyof s := (vt_value P (si_ty s)).
  Notation VS s := (VT P (tyof s)).
  Notation bs := (pure_search sr).
  Notation ok_buf := (ok_buf P).
  Notation le := (fun a b : entry => inst_cmp (e_stat a) (e_stat b) <> Gt).

  (** The invariant: entries of one stat lie together, stats ascend. *)
  Definition grouped (m : map_t) : Prop := StronglySorted le m.

  Lemma cmp_trans (x y z : inst P) : inst_cmp x y <> Gt -> inst_cmp y z <> Gt -> inst_cmp x z <> Gt.
  Proof.
    pose proof (inst_ord P D) as O. intros H1 H2.
    destruct (inst_cmp x y) eqn:E1; [apply (lo_eq _ O) in E1; subst; exact H2| |congruence].
    destruct (inst_cmp y z) eqn:E2; [apply (lo_eq _ O) in E2; subst; congruence| |congruence].
    rewrite (lo_trans _ O _ _ _ E1 E2). discriminate.
  Qed.
  Lemma cmp_ge (x y : inst P) : inst_cmp x y <> Lt -> inst_cmp y x <> Gt.
  Proof. rewrite (lo_anti _ (inst_ord P D) x y). destruct (inst_cmp x y); cbn; congruence. Qed.

  (** ** Searching *)
  Lemma key_answer c n (e : entry) q s r : any_key_cmp c n (e_stat e) (e_qual e) s q = Some r ->
    (r = Eq -> e_stat e = s /\ c n (e_qual e) q = Some Eq) /\
    (r <> Gt -> inst_cmp (e_stat e) s <> Gt) /\ (r <> Lt -> inst_cmp (e_stat e) s <> Lt).
  Proof.
    unfold any_key_cmp. destruct (inst_cmp (e_stat e) s) eqn:E; intros H.
    - split; [|split; congruence]. intros ->. split; [|exact H]. apply (lo_eq _ (inst_ord P D)), E.
    - inversion H; subst. split; [|split]; congruence.
    - inversion H; subst. split; [|split]; congruence.
  Qed.
  Lemma any_found c (m : map_t) q s i : any_search sr c m q s = Some (inl i) ->
    exists a e b, m = a ++ e :: b /\ length a = i /\ e_stat e = s /\ exists n, c n (e_qual e) q = Some Eq.
  Proof.
    unfold any_search. intros H. apply (sc_found _ C) in H as [L [n H]].
    destruct (nth_error m i) as [e|] eqn:E; [|discriminate]. apply key_answer in H as [H _]. destruct (H eq_refl) as [H1 H2].
    apply nth_error_split in E as [a [b [-> E]]]. exists a, e, b. eauto.
  Qed.
  Lemma grouped_app (a b : map_t) : grouped (a ++ b) <-> grouped a /\ grouped b /\ forall x y, In x a -> In y b -> le x y.
  Proof. apply StronglySorted_app. Qed.
  Lemma nth_le (m : map_t) i j x y : grouped m -> nth_error m i = Some x -> nth_error m j = Some y -> i <= j -> le x y.
  Proof.
    intros G. revert i j. induction G as [|e m G IH F]; intros i j Hi Hj L; [destruct i; discriminate|].
    destruct i as [|i], j as [|j]; cbn in Hi, Hj; try lia.
    - inversion Hi; inversion Hj; subst. subst. rewrite (inst_refl D). discriminate.
    - inversion Hi; subst. rewrite Forall_forall in F. apply F. eapply nth_error_In, Hj.
    - apply (IH i j); auto. lia.
  Qed.
  Lemma any_missing c (m : map_t) q s i : grouped m -> any_search sr c m q s = Some (inr i) ->
    exists a b, m = a ++ b /\ length a = i /\ Forall (fun e => inst_cmp (e_stat e) s <> Gt) a /\
    Forall (fun e => inst_cmp (e_stat e) s <> Lt) b.
  Proof.
    unfold any_search. intros G H. apply (sc_gap _ C) in H as [L [H1 H2]].
    exists (firstn i m), (skipn i m). split; [symmetry; apply firstn_skipn|]. split; [apply firstn_length_le, L|].
    assert (N : forall x, In x (firstn i m) -> exists k, k < i /\ nth_error m k = Some x).
    { intros x Hx. apply In_nth_error in Hx as [k Hk]. exists k.
      assert (k < i). { rewrite <- (firstn_length_le m L). apply nth_error_Some. congruence. }
      split; [assumption|]. rewrite <- (firstn_skipn i m). rewrite nth_error_app1; [exact Hk|]. rewrite firstn_length_le by exact L. assumption. }
    assert (N' : forall x, In x (skipn i m) -> exists k, i <= k /\ nth_error m k = Some x).
    { intros x Hx. apply In_nth_error in Hx as [k Hk]. exists (i + k). split; [lia|].
      rewrite <- (firstn_skipn i m). rewrite nth_error_app2; rewrite firstn_length_le by exact L; [|lia].
      replace (i + k - i) with k by lia. exact Hk. }
    split; apply Forall_forall; intros x Hx.
    - apply N in Hx as [k [Hk Ek]]. destruct H1 as [j [n [J1 [J2 J3]]]]; [lia|].
      destruct (nth_error m j) as [e|] eqn:Ej; [|destruct J3; discriminate].
      apply (cmp_trans _ (e_stat e)); [apply (nth_le m k j); auto; lia|].
      destruct J3 as [J3|J3]; apply key_answer in J3 as [_ [J3 _]]; apply J3; discriminate.
    - apply N' in Hx as [k [Hk Ek]]. assert (i < length m). { assert (k < length m) by (apply nth_error_Some; congruence). lia. }
      destruct H2 as [j [n [J1 J3]]]; [lia|].
      destruct (nth_error m j) as [e|] eqn:Ej; [|destruct J3; discriminate].
      assert (B : inst_cmp (e_stat e) s <> Lt) by (destruct J3 as [J3|J3]; apply key_answer in J3 as [_ [_ J3]]; apply J3; discriminate).
      apply cmp_ge in B. assert (A : inst_cmp s (e_stat x) <> Gt). { apply (cmp_trans _ (e_stat e)); [exact B|]. apply (nth_le m j k); auto. lia. }
      rewrite (lo_anti _ (inst_ord P D) s (e_stat x)). destruct (inst_cmp s (e_stat x)); cbn; congruence.
  Qed.

  (** ** The invariant under changes of the vector *)
  Lemma grouped_stats (m m' : map_t) : map e_stat m' = map e_stat m -> grouped m -> grouped m'.
  Proof.
    intros E G. unfold grouped in *. apply (StronglySorted_map e_stat (fun a b => inst_cmp a b <> Gt)).
    rewrite E. apply (StronglySorted_map e_stat (fun a b => inst_cmp a b <> Gt)), G.
  Qed.
  Lemma grouped_delete (a b c : map_t) : grouped (a ++ b ++ c) -> grouped (a ++ c).
  Proof.
    rewrite !grouped_app. intros [G1 [[G2 [G3 _]] G4]]. split; [exact G1|]. split; [exact G3|].
    intros x y Hx Hy. apply G4; [exact Hx|apply in_or_app; auto].
  Qed.
  Lemma grouped_insert (a b : map_t) e : grouped (a ++ b) -> Forall (fun x => inst_cmp (e_stat x) (e_stat e) <> Gt) a ->
    Forall (fun x => inst_cmp (e_stat x) (e_stat e) <> Lt) b -> grouped (a ++ e :: b).
  Proof.
    rewrite !grouped_app. intros [G1 [G2 G3]] Fa Fb. rewrite Forall_forall in Fa, Fb. split; [exact G1|]. split.
    - constructor; [exact G2|]. apply Forall_forall. intros x Hx. apply cmp_ge, Fb, Hx.
    - intros x y Hx [<-|Hy]; [apply Fa, Hx|apply G3; assumption].
  Qed.
  Lemma said_le c (a b : entry) : said (any_entry_cmp c) a b -> le a b.
  Proof.
    assert (A : forall n x y r, any_entry_cmp c n x y = Some r -> (r <> Gt -> le x y) /\ (r <> Lt -> le y x)).
    { intros n x y r. unfold any_entry_cmp. destruct (c n (e_qual x) (e_qual y)) as [r0|]; [|discriminate]. intros H.
      destruct (inst_cmp (e_stat x) (e_stat y)) eqn:E; inversion H; subst.
      - split; intros _; [congruence|]. apply (lo_eq _ (inst_ord P D)) in E. rewrite E, (inst_refl D). discriminate.
      - split; [intros _; congruence|congruence].
      - split; [congruence|]. intros _. apply cmp_ge. congruence. }
    intros [[n [H|H]]|[n [H|H]]]; apply A in H; apply H; discriminate.
  Qed.
  Lemma sorted_grouped c (m : map_t) : Sorted (clos_refl_trans entry (said (any_entry_cmp c))) m -> grouped m.
  Proof.
    intros H. apply Sorted_StronglySorted in H; [|intros x y z; apply rt_trans].
    unfold grouped. induction H as [|x m H IH F]; constructor; [exact IH|]. eapply Forall_impl; [|exact F].
    intros y R. clear -R D. induction R as [x y R|x|x y z _ IH1 _ IH2]; [apply (said_le c), R|rewrite (inst_refl D); discriminate|].
    eapply cmp_trans; eassumption.
  Qed.
  Lemma any_extend_perm c (m l : map_t) : Permutation (m ++ l) (fst (srt _ (any_entry_cmp c) (m ++ l))).
  Proof. apply (so_perm _ K). Qed.

  (** ** Slices *)
  Lemma grouped_cut (m : map_t) s : grouped m -> exists a b c, m = a ++ b ++ c /\ cut bs m s = Done (a, b, c) /\
    Forall (fun e => inst_cmp (e_stat e) s = Lt) a /\ Forall (fun e => e_stat e = s) b /\ Forall (fun e => inst_cmp (e_stat e) s = Gt) c.
  Proof.
    pose proof (sc_pure _ C) as B.
    intros H. destruct (mono_split (fun e => inst_cmp (e_stat e) s) _ m H) as [a [b [c [-> [Ha [Hb Hc]]]]]].
    { intros x y L. pose proof (inst_ord P D) as O. split; intros E.
      - destruct (inst_cmp (e_stat x) s) eqn:F; auto; exfalso.
        + apply (lo_eq _ O) in F. rewrite <- F in E. apply L. rewrite (lo_anti _ O), E. reflexivity.
        + apply (cmp_trans _ _ s L); congruence.
      - assert (inst_cmp (e_stat y) s <> Lt /\ inst_cmp (e_stat y) s <> Eq) as [F1 F2].
        { split; intros F; apply (cmp_trans _ _ s L); congruence. } destruct (inst_cmp (e_stat y) s); congruence. }
    exists a, b, c. split; [reflexivity|].
    assert (F1 : slice_fst bs (a ++ b ++ c) s = length a).
    { unfold slice_fst. rewrite !map_app.
      rewrite (map_const _ true a), (map_const _ false b), (map_const _ false c).
      - rewrite <- repeat_app. apply partition_point_spec, B.
      - eapply Forall_impl; [|exact Hc]. intros e E. unfold inst_ltb. rewrite E. reflexivity.
      - eapply Forall_impl; [|exact Hb]. intros e E. unfold inst_ltb. rewrite E. reflexivity.
      - eapply Forall_impl; [|exact Ha]. intros e E. unfold inst_ltb. rewrite E. reflexivity. }
    assert (F2 : slice_snd bs (a ++ b ++ c) s = length a + length b).
    { unfold slice_snd. rewrite !map_app.
      rewrite (map_const _ true a), (map_const _ true b), (map_const _ false c).
      - rewrite app_assoc, <- repeat_app. apply partition_point_spec, B.
      - eapply Forall_impl; [|exact Hc]. intros e E. unfold inst_leb. rewrite E. reflexivity.
      - eapply Forall_impl; [|exact Hb]. intros e E. unfold inst_leb. rewrite E. reflexivity.
      - eapply Forall_impl; [|exact Ha]. intros e E. unfold inst_leb. rewrite E. reflexivity. }
    split.
    - unfold cut. rewrite F1, F2, !app_length.
      destruct (Nat.leb_spec (length a) (length a + length b)); [|lia].
      destruct (Nat.leb_spec (length a + length b) (length a + (length b + length c))); [|lia]. cbn.
      rewrite firstn_len_app, skipn_len_app.
      replace (length a + length b - length a) with (length b) by lia. rewrite firstn_len_app.
      rewrite app_assoc. rewrite <- app_length. rewrite skipn_len_app. reflexivity.
    - split; [exact Ha|]. split; [|exact Hc]. eapply Forall_impl; [|exact Hb]. intros e E.
      apply (lo_eq _ (inst_ord P D)). exact E.
  Qed.
  Lemma grouped_slice (m : map_t) s : grouped m -> slice bs m s = Done (of_stat s m).
  Proof.
    intros G. destruct (grouped_cut m s G) as [a [b [c [-> [E [Ha [Hb Hc]]]]]]].
    unfold slice. rewrite E. cbn. f_equal. unfold of_stat. rewrite !filter_app.
    assert (F : forall l, Forall (fun e : entry => inst_cmp (e_stat e) s <> Eq) l -> filter (fun e => inst_eqb (e_stat e) s) l = []).
    { induction 1 as [|e l He Hl IH]; cbn; [reflexivity|]. destruct (inst_eqb (e_stat e) s) eqn:J; [|exact IH].
      apply (inst_eqb_iff D) in J. rewrite J, (inst_refl D) in He. congruence. }
    rewrite (F a), (F c).
    - rewrite app_nil_l, app_nil_r. symmetry. clear E G. induction Hb as [|e l He Hl IH]; cbn [filter]; [reflexivity|].
      rewrite (proj2 (inst_eqb_iff D (e_stat e) s) He), IH. reflexivity.
    - eapply Forall_impl; [|exact Hc]. cbn; intros; congruence.
    - eapply Forall_impl; [|exact Ha]. cbn; intros; congruence.
  Qed.

  (** ** Operations *)
  Definition good (m : map_t) : Prop := grouped m /\ typed m.
  Definition fine (r : outcome (option (effect P Q (buffer P) * bool))) : Prop :=
    r <> UB /\ forall x ok, r = Done (Some (x, ok)) -> typed (x_map x) /\ (ok = true -> grouped (x_map x)).

  Lemma fine_panics p : fine (Panics p). Proof. split; [discriminate|intros; discriminate]. Qed.
  Lemma fine_nofuel : fine NoFuel. Proof. split; [discriminate|intros; discriminate]. Qed.
  Lemma fine_none : fine (Done None). Proof. split; [discriminate|intros; discriminate]. Qed.
  Lemma fine_done x : good (x_map x) -> fine (Done (Some (x, true))).
  Proof. intros [G T]. split; [discriminate|]. intros y ok H. inversion H; subst. auto. Qed.

  Lemma any_put_fine c m q s (d : outcome (buffer P)) : good m -> d <> UB -> (forall b, d = Done b -> ok_buf s b) ->
    fine (any_cop sr srt c m (CPut q s d)).
  Proof.
    intros [G T] H1 H2. cbn [any_cop]. destruct d as [b|p| |]; cbn [obind]; auto using fine_panics, fine_nofuel; [|congruence].
    specialize (H2 b eq_refl). destruct (any_search sr c m q s) as [[i|i]|] eqn:E; [| |apply fine_none].
    - apply any_found in E as [a [e [cc [-> [<- [Es _]]]]]]. cbn [cop_run obind]. unfold put, search. rewrite vec_get_app. cbn [obind].
      rewrite vec_set_app. cbn. apply fine_done. cbn. apply typed_mid in T as [T1 [_ T3]]. split.
      + eapply grouped_stats; [|exact G]. rewrite !map_app. reflexivity.
      + apply typed_mid. split; [exact T1|]. split; [|exact T3]. unfold ok_entry. cbn. rewrite Es. exact H2.
    - apply any_missing in E as [a [cc [-> [<- [F1 F2]]]]]; [|exact G]. cbn [cop_run obind]. unfold put, search.
      rewrite vec_insert_app. cbn. apply fine_done. cbn. apply typed_app in T as [T1 T2]. split.
      + apply grouped_insert; assumption.
      + apply typed_mid. auto.
  Qed.
  Lemma any_upsert_fine c m q s f (d : outcome (buffer P)) : good m -> (forall v, f v <> UB) -> d <> UB ->
    (forall b, d = Done b -> ok_buf s b) -> fine (any_cop sr srt c m (CUpsert q s (fun b => buf_mut P (tyof s) b f) d)).
  Proof.
    intros [G T] Hf H1 H2. cbn [any_cop]. destruct (any_search sr c m q s) as [[i|i]|] eqn:E; [| |apply fine_none].
    - apply any_found in E as [a [e [cc [-> [<- [<- _]]]]]]. cbn [cop_run]. unfold upsert, search. rewrite vec_get_app. cbn [obind].
      apply typed_mid in T as [T1 [T2 T3]]. destruct (buf_mut_safe (e_stat e) (e_val e) f T2 Hf) as [K1 K2].
      destruct (buf_mut P (tyof (e_stat e)) (e_val e) f) as [b|p| |]; cbn [obind]; auto using fine_panics, fine_nofuel; [|congruence].
      rewrite vec_set_app. cbn. apply fine_done. cbn. split.
      + eapply grouped_stats; [|exact G]. rewrite !map_app. reflexivity.
      + apply typed_mid. split; [exact T1|]. split; [exact (K2 b eq_refl)|exact T3].
    - apply any_missing in E as [a [cc [-> [<- [F1 F2]]]]]; [|exact G]. cbn [cop_run]. unfold upsert, search.
      destruct d as [b|p| |]; cbn [obind]; auto using fine_panics, fine_nofuel; [|congruence].
      rewrite vec_insert_app. cbn. apply fine_done. cbn. apply typed_app in T as [T1 T2]. split.
      + apply grouped_insert; assumption.
      + apply typed_mid. split; [exact T1|]. split; [apply (H2 b eq_refl)|exact T2].
  Qed.
  Lemma any_mop_fine c m o : good m -> sound_op o -> fine (any_mop sr srt c m o).
  Proof.
    intros [G T] O. pose proof (conj G T : good m) as GT.
    assert (Same : forall r : outcome (option (effect P Q (buffer P) * bool)), fine r ->
      fine (let! r := r in match r with Some (x, _) => Done r | None => Done r end)).
    { intros [[[x ok]|]|p| |] F; exact F. }
    destruct o as [q s v|q s b|q s f|q s|q s op|q s f|s|s f| |U l]; unfold any_mop; cbn [mop_core sound_op] in *.
    - apply Same. destruct (from_safe s v) as [F1 F2]. apply any_put_fine; assumption.
    - apply Same. destruct (from_safe s (sv_from_base (VS s) b)) as [F1 F2]. apply any_put_fine; assumption.
    - apply Same. cbn [any_cop]. destruct (any_search sr c m q s) as [[i|i]|] eqn:E; [| |apply fine_none].
      + apply any_found in E as [a [e [cc [-> [<- [<- _]]]]]]. cbn [cop_run]. unfold update, search. rewrite vec_get_app. cbn [obind].
        apply typed_mid in T as [T1 [T2 T3]]. destruct (buf_mut_safe (e_stat e) (e_val e) f T2 O) as [K1 K2].
        destruct (buf_mut P (tyof (e_stat e)) (e_val e) f) as [b|p| |]; cbn [obind]; auto using fine_panics, fine_nofuel; [|congruence].
        rewrite vec_set_app. cbn. apply fine_done. cbn. split.
        * eapply grouped_stats; [|exact G]. rewrite !map_app. reflexivity.
        * apply typed_mid. split; [exact T1|]. split; [exact (K2 b eq_refl)|exact T3].
      + cbn. apply fine_done. exact GT.
    - cbn [any_cop]. destruct (any_search sr c m q s) as [[i|i]|] eqn:E; [| |apply fine_none].
      + apply any_found in E as [a [e [cc [-> [<- [<- _]]]]]]. cbn [cop_run]. unfold take, search. rewrite vec_remove_app. cbn.
        apply typed_mid in T as [T1 [T2 T3]]. destruct (ok_buf_inv P _ _ T2) as [v [-> Hok]]. unfold buf_read_move.
        rewrite buf_ref_ok by exact Hok. cbn. apply fine_done. cbn. split; [apply (grouped_delete a [e] cc G)|apply typed_app; auto].
      + cbn. apply fine_done. exact GT.
    - apply Same. apply any_upsert_fine; try assumption.
      + pose proof (O (sv_default (VS s))) as O'. unfold into_stat. destruct (write_to op (sv_default (VS s))); cbn; try congruence. apply from_safe.
      + unfold into_stat. destruct (write_to op (sv_default (VS s))); cbn; try discriminate. apply from_safe.
    - apply Same. apply any_upsert_fine; try assumption.
      + pose proof (O (sv_default (VS s))) as O'. destruct (f (sv_default (VS s))); cbn; try congruence. apply from_safe.
      + destruct (f (sv_default (VS s))); cbn; try discriminate. apply from_safe.
    - cbn [any_cop cop_run]. unfold drain, slice. destruct (grouped_cut m s G) as [a [b [cc [-> [-> [_ [Hb _]]]]]]]. cbn.
      apply typed_app in T as [T1 T]. apply typed_app in T as [T2 T3]. rewrite (drop_all_ok b T2). cbn. apply fine_done. cbn.
      split; [eapply grouped_delete; exact G|]. apply typed_app; auto.
    - apply Same. cbn [any_cop cop_run]. unfold update_slice. destruct (grouped_cut m s G) as [a [b [cc [-> [-> [_ [Hb _]]]]]]]. cbn.
      apply typed_app in T as [T1 T]. apply typed_app in T as [T2 T3].
      destruct (update_each_safe s f b Hb T2 O) as [K1 K2].
      destruct (update_each _ b) as [b'|p| |] eqn:F; cbn; auto using fine_panics, fine_nofuel; [|congruence].
      apply fine_done. cbn. split.
      + pose proof (update_each_keys _ _ _ F) as Ky. eapply grouped_stats; [|exact G]. rewrite !map_app. f_equal. f_equal.
        assert (Ks : forall l : map_t, map e_stat l = map fst (map ekey l)) by (intros l; rewrite map_map; reflexivity).
        rewrite !Ks, Ky. reflexivity.
      + apply typed_app. split; [exact T1|]. apply typed_app. split; [apply K2; reflexivity|exact T3].
    - cbn [any_cop cop_run]. cbn. rewrite (drop_all_ok m T). cbn. apply fine_done. cbn. split; constructor.
    - apply Same. cbn [any_cop]. destruct (build_safe U l) as [B1 B2]. destruct (build U l) as [r|p| |]; cbn [obind]; auto using fine_panics, fine_nofuel; [|congruence].
      destruct (B2 r eq_refl) as [T2 _]. split; [discriminate|]. intros x ok Hx. inversion Hx; subst. cbn [x_map]. split.
      + unfold typed. eapply Permutation_Forall; [apply any_extend_perm|]. apply Forall_app. auto.
      + intros J. eapply sorted_grouped, (so_order _ K), J.
  Qed.
  Lemma any_cop_flag c (m : map_t) o x : any_cop sr srt c m o = Done (Some (x, false)) -> match o with CExtend _ => True | _ => False end.
  Proof.
    destruct o; cbn [any_cop]; auto;
      repeat match goal with |- context [any_search ?a ?b ?d ?e ?f] => destruct (any_search a b d e f) end;
      repeat match goal with |- context [obind ?r _] => destruct r; cbn [obind] end; intros H; discriminate.
  Qed.
  Lemma any_mop_flag c (m : map_t) o x : any_mop sr srt c m o = Done (Some (x, false)) -> is_extend o.
  Proof.
    unfold any_mop. destruct (any_cop sr srt c m (mop_core o)) as [[[y ok]|]|p| |] eqn:E; cbn [obind]; try discriminate.
    - intros H. assert (F : ok = false).
      { destruct o; try (inversion H; reflexivity).
        - destruct (x_returned y) as [b|]; [destruct (buf_read_move P (tyof s) b)|]; inversion H; reflexivity.
        - destruct (slice bs m s) as [z|p| |]; cbn [obind] in H; try discriminate. destruct (drop_all z); inversion H; reflexivity.
        - destruct (drop_all m); inversion H; reflexivity. }
      subst. apply any_cop_flag in E. destruct o; cbn in *; auto.
  Qed.
  Lemma any_step_good m k : good m -> any_sound k -> any_step sr srt m k <> UB /\ forall m', any_step sr srt m k = Done m' -> good m'.
  Proof.
    intros GT [O1 O2]. unfold any_step. destruct (any_mop_fine (a_order k) m (a_op k) GT O1) as [F1 F2].
    destruct (any_mop sr srt (a_order k) m (a_op k)) as [[[x ok]|]|p| |] eqn:E; cbn [obind]; try (split; [congruence|intros; discriminate]).
    - destruct (F2 x ok eq_refl) as [T G]. destruct ok; cbn [orb].
      + split; [discriminate|]. intros m' H. inversion H; subst. split; auto.
      + assert (N : a_catch k = false).
        { apply O2. revert E. apply any_mop_flag. }
        rewrite N. split; [discriminate|]. intros m' H. discriminate.
    - destruct (a_catch k); split; try discriminate. intros m' H. inversion H; subst. exact GT.
  Qed.
  Lemma any_run_good l : forall m, good m -> Forall any_sound l -> any_run sr srt m l <> UB /\ forall m', any_run sr srt m l = Done m' -> good m'.
  Proof.
    induction l as [|k l IH]; intros m GT S; cbn [any_run].
    - split; [discriminate|]. intros m' H. inversion H; subst. exact GT.
    - inversion S; subst. destruct (any_step_good m k GT H1) as [F1 F2]. destruct (any_step sr srt m k) as [m1|p| |]; cbn [obind]; try (split; [congruence|intros; discriminate]).
      apply IH; auto.
  Qed.
  Lemma good_nil : good []. Proof. split; constructor. Qed.

  (** ** Observers *)
  Lemma reads_entries s (l : map_t) : typed l -> Forall (fun e => e_stat e = s) l ->
    map (fun p => Entry s (fst p) (Buf (tyof s) (snd p))) (reads s l) = l.
  Proof.
    intros T Hs. induction l as [|e l IH]; cbn; [reflexivity|]. inversion Hs as [|? ? Es Hs']; subst. inversion T as [|? ? Te T']; subst.
    destruct (ok_buf_inv P _ _ Te) as [w [Ev _]]. unfold read. rewrite Ev, cast_val_same. cbn. rewrite (IH T' Hs').
    rewrite <- Ev. destruct e; reflexivity.
  Qed.
  Lemma any_iter m s : good m -> m_iter bs m s = Done (reads s (of_stat s m)) /\ entries_of m s (reads s (of_stat s m)).
  Proof.
    intros [G T]. unfold m_iter. rewrite (grouped_slice m s G). cbn [obind]. split.
    - apply read_each_spec; [apply (of_stat_all D)|apply of_stat_typed, T].
    - apply reads_entries; [apply of_stat_typed, T|apply (of_stat_all D)].
  Qed.
  Lemma any_stream m x s v : good m -> validate_ty P (tyof s) = Done tt -> map_stream bs m x (Pair s (Buf (tyof s) v)) =
    let! r := join_all s v (filter (fun p => qualifies_as (fst p) x) (reads s (of_stat s m))) in Done (Pair s (Buf (tyof s) r)).
  Proof.
    intros [G T] Hok. unfold map_stream. cbn [p_stat]. rewrite (grouped_slice m s G). cbn [obind].
    apply stream_fold; [exact Hok|apply (of_stat_all D)|apply of_stat_typed, T].
  Qed.
  Lemma any_query m x s : good m -> m_query bs m x s = let! _ := validate_ty P (tyof s) in
      join_all s (sv_default (VS s)) (filter (fun p => qualifies_as (fst p) x) (reads s (of_stat s m))).
  Proof.
    intros GT. unfold m_query, pair_new_default, pair_new, buf_from.
    destruct (validate_ty P (tyof s)) as [[]|p| |] eqn:Hok; cbn [obind]; try reflexivity.
    rewrite (any_stream m x s _ GT Hok). destruct (join_all _ _ _) as [r|p| |]; cbn [obind]; try reflexivity.
    cbn [p_buf]. unfold buf_into. apply buf_ref_ok, Hok.
  Qed.
  Lemma join_all_safe s l : (forall t a b, sv_join (VT P t) a b <> UB) -> forall v, @join_all P Q s v l <> UB.
  Proof.
    intros J. unfold join_all. induction l as [|p l IH]; intros v; cbn [ofold]; [discriminate|].
    pose proof (J _ v (snd p)). destruct (sv_join (VS s) v (snd p)) as [w|p'| |]; cbn [obind]; [apply IH|discriminate|congruence|discriminate].
  Qed.
  Lemma any_get_spec c m q s : good m ->
    any_get sr c m q s = Panics PUser \/ any_get sr c m q s = Done None \/
    exists q' v n, any_get sr c m q s = Done (Some v) /\ In (Entry s q' (Buf (tyof s) v)) m /\ c n q' q = Some Eq.
  Proof.
    intros [G T]. unfold any_get, any_find. destruct (any_search sr c m q s) as [[i|i]|] eqn:E; [|auto|auto].
    right. right. apply any_found in E as [a [e [cc [-> [<- [<- [n En]]]]]]]. unfold find, search. rewrite vec_get_app. cbn [obind].
    apply typed_mid in T as [_ [T _]]. destruct (ok_buf_inv P _ _ T) as [v [Ev Hok]]. exists (e_qual e), v, n. rewrite Ev, buf_ref_ok by exact Hok.
    split; [reflexivity|]. split; [|exact En]. rewrite <- Ev. destruct e. apply in_elt.
  Qed.
End AnyOrd.
