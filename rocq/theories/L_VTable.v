(** Proofs about maps in programs whose tables may lie together if they are for the same value type. *)
From Coq Require Import ZArith Arith List Bool Lia Sorted Permutation Relations.
From Verif Require Import M_Outcome M_Value M_Qualifier M_Search M_Stat M_StatMap M_AnyOrd M_VTable
  S_Search S_StatMap S_AnyOrd S_VTable L_Outcome L_Search L_StatMap L_StatMap2 L_StatMap3 L_StatMap4 L_StatMap5 L_AnyOrd.
Import ListNotations.

Section Together.
  Context {P : Prog} {Q : QFlag}.
  Variable sr : searcher.
  Variable srt : sorter.
  Hypothesis C : search_contract sr.
  Hypothesis K : sort_contract srt.
  Hypothesis SV : forall a b, vt_addr P a = vt_addr P b -> vt_value P a = vt_value P b.
  Notation entry := (entry P Q (buffer P)).
  Notation map_t := (map_t P Q).
  Notation tyof s := (vt_value P (si_ty s)).
  Notation bs := (pure_search sr).
  Notation le := (fun a b : entry => inst_cmp (e_stat a) (e_stat b) <> Gt).

  (** ** Comparing stats *)
  Lemma icmp_eq (x y : inst P) : inst_cmp x y = Eq <-> vt_addr P (si_ty x) = vt_addr P (si_ty y) /\ si_index x = si_index y.
  Proof.
    unfold inst_cmp. destruct (Z.compare_spec (vt_addr P (si_ty x)) (vt_addr P (si_ty y))) as [E|E|E].
    - rewrite Z.compare_eq_iff. tauto.
    - split; [discriminate|]. intros [H _]. lia.
    - split; [discriminate|]. intros [H _]. lia.
  Qed.
  Lemma icmp_refl (x : inst P) : inst_cmp x x = Eq. Proof. apply icmp_eq. auto. Qed.
  Lemma icmp_anti (x y : inst P) : inst_cmp y x = CompOpp (inst_cmp x y).
  Proof.
    unfold inst_cmp. rewrite (Z.compare_antisym (vt_addr P (si_ty x))). destruct (vt_addr P (si_ty x) ?= vt_addr P (si_ty y))%Z; cbn; try reflexivity.
    apply Z.compare_antisym.
  Qed.
  Definition before (x y : inst P) : Prop :=
    (vt_addr P (si_ty x) < vt_addr P (si_ty y) \/ vt_addr P (si_ty x) = vt_addr P (si_ty y) /\ si_index x < si_index y)%Z.
  Lemma icmp_lt (x y : inst P) : inst_cmp x y = Lt <-> before x y.
  Proof.
    unfold inst_cmp, before. destruct (Z.compare_spec (vt_addr P (si_ty x)) (vt_addr P (si_ty y))) as [E|E|E].
    - rewrite Z.compare_lt_iff. lia.
    - split; [lia|reflexivity].
    - split; [discriminate|lia].
  Qed.
  Lemma icmp_gt (x y : inst P) : inst_cmp x y = Gt <-> before y x.
  Proof. rewrite (icmp_anti y x), <- icmp_lt. destruct (inst_cmp y x); cbn; split; congruence. Qed.
  Lemma icmp_trans (x y z : inst P) : inst_cmp x y <> Gt -> inst_cmp y z <> Gt -> inst_cmp x z <> Gt.
  Proof. rewrite !icmp_gt. unfold before. lia. Qed.
  Lemma icmp_ge (x y : inst P) : inst_cmp x y <> Lt -> inst_cmp y x <> Gt.
  Proof. rewrite (icmp_anti x y). destruct (inst_cmp x y); cbn; congruence. Qed.
  Lemma icmp_ty (x y : inst P) : inst_cmp x y = Eq -> tyof x = tyof y.
  Proof. intros H. apply SV. apply icmp_eq, H. Qed.

  (** ** Buffers *)
  Definition okb (t : vty P) (b : buffer P) : Prop := b_ty b = t /\ ok_ty P t.
  Lemma okb_inv t b : okb t b -> exists v, b = Buf t v /\ ok_ty P t.
  Proof. intros [H1 H2]. destruct (buf_ty_inv _ _ _ H1) as [v ->]. eauto. Qed.
  Lemma okb_from t v : buf_from P t v <> UB /\ forall b, buf_from P t v = Done b -> okb t b.
  Proof. split; [apply buf_from_not_ub|]. intros b H. apply buf_from_inv in H as [-> H]. split; auto. Qed.
  Lemma okb_mut t b f : okb t b -> (forall v, f v <> UB) -> buf_mut P t b f <> UB /\ forall b', buf_mut P t b f = Done b' -> okb t b'.
  Proof.
    intros H Hf. destruct (okb_inv _ _ H) as [v [-> Hok]]. rewrite buf_mut_ok by exact Hok. specialize (Hf v).
    destruct (f v) as [v'|p| |]; cbn [obind]; split; try congruence. intros b' H'. inversion H'. split; auto.
  Qed.
  Lemma ok_entry_okb (e : entry) t : ok_entry e -> tyof (e_stat e) = t -> okb t (e_val e).
  Proof. intros H <-. exact H. Qed.

  (** ** Searching, as in L_AnyOrd2.v *)
  Definition grouped (m : map_t) : Prop := StronglySorted le m.
  Lemma key_answer c n (e : entry) q s r : any_key_cmp c n (e_stat e) (e_qual e) s q = Some r ->
    (r = Eq -> inst_cmp (e_stat e) s = Eq) /\
    (r <> Gt -> inst_cmp (e_stat e) s <> Gt) /\ (r <> Lt -> inst_cmp (e_stat e) s <> Lt).
  Proof.
    unfold any_key_cmp. destruct (inst_cmp (e_stat e) s) eqn:E; intros H.
    - split; [|split]; congruence.
    - inversion H; subst. split; [|split]; congruence.
    - inversion H; subst. split; [|split]; congruence.
  Qed.
  Lemma any_found c (m : map_t) q s i : any_search sr c m q s = Some (inl i) ->
    exists a e b, m = a ++ e :: b /\ length a = i /\ inst_cmp (e_stat e) s = Eq.
  Proof.
    unfold any_search. intros H. apply (sc_found _ C) in H as [L [n H]].
    destruct (nth_error m i) as [e|] eqn:E; [|discriminate]. apply key_answer in H as [H _]. specialize (H eq_refl).
    apply nth_error_split in E as [a [b [-> E]]]. exists a, e, b. eauto.
  Qed.
  Lemma grouped_app (a b : map_t) : grouped (a ++ b) <-> grouped a /\ grouped b /\ forall x y, In x a -> In y b -> le x y.
  Proof. apply StronglySorted_app. Qed.
  Lemma nth_le (m : map_t) i j x y : grouped m -> nth_error m i = Some x -> nth_error m j = Some y -> i <= j -> le x y.
  Proof.
    intros G. revert i j. induction G as [|e m G IH F]; intros i j Hi Hj L; [destruct i; discriminate|].
    destruct i as [|i], j as [|j]; cbn in Hi, Hj; try lia.
    - inversion Hi; inversion Hj; subst. subst. rewrite icmp_refl. discriminate.
    - inversion Hi; subst. rewrite Forall_forall in F. apply F. eapply nth_error_In, Hj.
    - apply (IH i j); auto. lia.
  Qed.
  Lemma any_missing c (m : map_t) q s i : grouped m -> any_search sr c m q s = Some (inr i) ->
    exists a b, m = a ++ b /\ length a = i /\ Forall (fun e => inst_cmp (e_stat e) s <> Gt) a /\
    Forall (fun e => inst_cmp (e_stat e) s <> Lt) b.
  Proof.
    unfold any_search. intros G H. apply (sc_gap _ C) in H as [L [H1 H2]].
    exists (firstn i m), (skipn i m). split; [symmetry; apply firstn_skipn|]. split; [apply firstn_length_le, L|].
    assert (N : forall x, In x (firstn i m) -> exists k, k < i /\ nth_error m k = Some x).
    { intros x Hx. apply In_nth_error in Hx as [k Hk]. exists k.
      assert (k < i). { rewrite <- (firstn_length_le m L). apply nth_error_Some. congruence. }
      split; [assumption|]. rewrite <- (firstn_skipn i m). rewrite nth_error_app1; [exact Hk|]. rewrite firstn_length_le by exact L. assumption. }
    assert (N' : forall x, In x (skipn i m) -> exists k, i <= k /\ nth_error m k = Some x).
    { intros x Hx. apply In_nth_error in Hx as [k Hk]. exists (i + k). split; [lia|].
      rewrite <- (firstn_skipn i m). rewrite nth_error_app2; rewrite firstn_length_le by exact L; [|lia].
      replace (i + k - i) with k by lia. exact Hk. }
    split; apply Forall_forall; intros x Hx.
    - apply N in Hx as [k [Hk Ek]]. destruct H1 as [j [n [J1 [J2 J3]]]]; [lia|].
      destruct (nth_error m j) as [e|] eqn:Ej; [|destruct J3; discriminate].
      apply (icmp_trans _ (e_stat e)); [apply (nth_le m k j); auto; lia|].
      destruct J3 as [J3|J3]; apply key_answer in J3 as [_ [J3 _]]; apply J3; discriminate.
    - apply N' in Hx as [k [Hk Ek]]. assert (i < length m). { assert (k < length m) by (apply nth_error_Some; congruence). lia. }
      destruct H2 as [j [n [J1 J3]]]; [lia|].
      destruct (nth_error m j) as [e|] eqn:Ej; [|destruct J3; discriminate].
      assert (B : inst_cmp (e_stat e) s <> Lt) by (destruct J3 as [J3|J3]; apply key_answer in J3 as [_ [_ J3]]; apply J3; discriminate).
      apply icmp_ge in B. assert (A : inst_cmp s (e_stat x) <> Gt). { apply (icmp_trans _ (e_stat e)); [exact B|]. apply (nth_le m j k); auto. lia. }
      rewrite (icmp_anti s (e_stat x)). destruct (inst_cmp s (e_stat x)); cbn; congruence.
  Qed.
  Lemma grouped_stats (m m' : map_t) : map e_stat m' = map e_stat m -> grouped m -> grouped m'.
  Proof.
    intros E G. unfold grouped in *. apply (StronglySorted_map e_stat (fun a b => inst_cmp a b <> Gt)).
    rewrite E. apply (StronglySorted_map e_stat (fun a b => inst_cmp a b <> Gt)), G.
  Qed.
  Lemma grouped_delete (a b c : map_t) : grouped (a ++ b ++ c) -> grouped (a ++ c).
  Proof.
    rewrite !grouped_app. intros [G1 [[G2 [G3 _]] G4]]. split; [exact G1|]. split; [exact G3|].
    intros x y Hx Hy. apply G4; [exact Hx|apply in_or_app; auto].
  Qed.
  Lemma grouped_insert (a b : map_t) e : grouped (a ++ b) -> Forall (fun x => inst_cmp (e_stat x) (e_stat e) <> Gt) a ->
    Forall (fun x => inst_cmp (e_stat x) (e_stat e) <> Lt) b -> grouped (a ++ e :: b).
  Proof.
    rewrite !grouped_app. intros [G1 [G2 G3]] Fa Fb. rewrite Forall_forall in Fa, Fb. split; [exact G1|]. split.
    - constructor; [exact G2|]. apply Forall_forall. intros x Hx. apply icmp_ge, Fb, Hx.
    - intros x y Hx [<-|Hy]; [apply Fa, Hx|apply G3; assumption].
  Qed.
  Lemma said_le c (a b : entry) : said (any_entry_cmp c) a b -> le a b.
  Proof.
    assert (A : forall n x y r, any_entry_cmp c n x y = Some r -> (r <> Gt -> le x y) /\ (r <> Lt -> le y x)).
    { intros n x y r. unfold any_entry_cmp. destruct (c n (e_qual x) (e_qual y)) as [r0|]; [|discriminate]. intros H.
      rewrite (icmp_anti (e_stat x) (e_stat y)).
      destruct (inst_cmp (e_stat x) (e_stat y)) eqn:E; inversion H; subst; cbn; split; congruence. }
    intros [[n [H|H]]|[n [H|H]]]; apply A in H; apply H; discriminate.
  Qed.
  Lemma sorted_grouped c (m : map_t) : Sorted (clos_refl_trans entry (said (any_entry_cmp c))) m -> grouped m.
  Proof.
    intros H. apply Sorted_StronglySorted in H; [|intros x y z; apply rt_trans].
    unfold grouped. induction H as [|x m H IH F]; constructor; [exact IH|]. eapply Forall_impl; [|exact F].
    intros y R. clear -R. induction R as [x y R|x|x y z _ IH1 _ IH2]; [apply (said_le c), R|rewrite icmp_refl; discriminate|].
    eapply icmp_trans; eassumption.
  Qed.
  Lemma grouped_cut (m : map_t) s : grouped m -> exists a b c, m = a ++ b ++ c /\ cut bs m s = Done (a, b, c) /\
    Forall (fun e => inst_cmp (e_stat e) s = Eq) b.
  Proof.
    pose proof (sc_pure _ C) as B.
    intros H. destruct (mono_split (fun e => inst_cmp (e_stat e) s) _ m H) as [a [b [c [-> [Ha [Hb Hc]]]]]].
    { intros x y L. rewrite !icmp_gt, !icmp_lt in *. unfold before in *. lia. }
    exists a, b, c. split; [reflexivity|].
    assert (F1 : slice_fst bs (a ++ b ++ c) s = length a).
    { unfold slice_fst. rewrite !map_app.
      rewrite (map_const _ true a), (map_const _ false b), (map_const _ false c).
      - rewrite <- repeat_app. apply partition_point_spec, B.
      - eapply Forall_impl; [|exact Hc]. intros e E. unfold inst_ltb. rewrite E. reflexivity.
      - eapply Forall_impl; [|exact Hb]. intros e E. unfold inst_ltb. rewrite E. reflexivity.
      - eapply Forall_impl; [|exact Ha]. intros e E. unfold inst_ltb. rewrite E. reflexivity. }
    assert (F2 : slice_snd bs (a ++ b ++ c) s = length a + length b).
    { unfold slice_snd. rewrite !map_app.
      rewrite (map_const _ true a), (map_const _ true b), (map_const _ false c).
      - rewrite app_assoc, <- repeat_app. apply partition_point_spec, B.
      - eapply Forall_impl; [|exact Hc]. intros e E. unfold inst_leb. rewrite E. reflexivity.
      - eapply Forall_impl; [|exact Hb]. intros e E. unfold inst_leb. rewrite E. reflexivity.
      - eapply Forall_impl; [|exact Ha]. intros e E. unfold inst_leb. rewrite E. reflexivity. }
    split; [|exact Hb].
    unfold cut. rewrite F1, F2, !app_length.
    destruct (Nat.leb_spec (length a) (length a + length b)); [|lia].
    destruct (Nat.leb_spec (length a + length b) (length a + (length b + length c))); [|lia]. cbn.
    rewrite firstn_len_app, skipn_len_app.
    replace (length a + length b - length a) with (length b) by lia. rewrite firstn_len_app.
    rewrite app_assoc. rewrite <- app_length. rewrite skipn_len_app. reflexivity.
  Qed.

  (** ** Operations *)
  Definition good (m : map_t) : Prop := grouped m /\ typed m.
  Definition sound_cop (o : cop P Q (buffer P)) : Prop :=
    let makes s (d : outcome (buffer P)) := d <> UB /\ forall b, d = Done b -> okb (tyof s) b in
    let changes s (f : buffer P -> outcome (buffer P)) := forall b, okb (tyof s) b -> makes s (f b) in
    match o with
    | CPut q s d => makes s d
    | CUpdate q s f => changes s f
    | CUpsert q s f d => changes s f /\ makes s d
    | CUpdateSlice s f => forall q, changes s (f q)
    | CExtend l => l <> UB /\ forall r, l = Done r -> typed r
    | _ => True
    end.
  Definition fine (o : cop P Q (buffer P)) (r : outcome (option (effect P Q (buffer P) * bool))) : Prop :=
    r <> UB /\ forall x ok, r = Done (Some (x, ok)) -> typed (x_map x) /\ (ok = true -> grouped (x_map x)) /\
    match o with CTake q s => forall b, x_returned x = Some b -> okb (tyof s) b | _ => True end.
  Lemma fine_panics o p : fine o (Panics p). Proof. split; [discriminate|intros; discriminate]. Qed.
  Lemma fine_nofuel o : fine o NoFuel. Proof. split; [discriminate|intros; discriminate]. Qed.
  Lemma fine_none o : fine o (Done None). Proof. split; [discriminate|intros; discriminate]. Qed.
  Lemma fine_done o x : good (x_map x) -> match o with CTake q s => forall b, x_returned x = Some b -> okb (tyof s) b | _ => True end ->
    fine o (Done (Some (x, true))).
  Proof. intros [G T] R. split; [discriminate|]. intros y ok H. inversion H; subst. auto. Qed.

  Lemma each_safe s f (b : map_t) : Forall (fun e => inst_cmp (e_stat e) s = Eq) b -> typed b ->
    (forall q x, okb (tyof s) x -> f q x <> UB /\ forall y, f q x = Done y -> okb (tyof s) y) ->
    update_each f b <> UB /\ forall b', update_each f b = Done b' -> typed b'.
  Proof.
    intros Hs T Hf. induction b as [|e b IH]; cbn [update_each]; [split; [discriminate|]; intros b' H; inversion H; constructor|].
    inversion Hs as [|? ? Es Hs']; subst. inversion T as [|? ? Te T']; subst. destruct (IH Hs' T') as [I1 I2].
    destruct (Hf (e_qual e) (e_val e) (ok_entry_okb e _ Te (icmp_ty _ _ Es))) as [F1 F2].
    destruct (f (e_qual e) (e_val e)) as [v|p| |]; cbn [obind]; try (split; [congruence|intros; discriminate]).
    destruct (update_each f b) as [r|p| |]; cbn [obind]; try (split; [congruence|intros; discriminate]).
    split; [discriminate|]. intros b' H. inversion H; subst. constructor; [|apply I2; reflexivity].
    unfold ok_entry, ok_buf. cbn. rewrite (icmp_ty _ _ Es). apply F2. reflexivity.
  Qed.
  Lemma cop_fine c m o : good m -> sound_cop o -> fine o (any_cop sr srt c m o).
  Proof.
    intros [G T] S. pose proof (conj G T : good m) as GT.
    destruct o as [q s d|q s f|q s f d|q s|s|s f| |l]; cbn [any_cop sound_cop] in *.
    - destruct S as [S1 S2]. destruct d as [b|p| |]; cbn [obind]; auto using fine_panics, fine_nofuel; [|congruence].
      specialize (S2 b eq_refl). destruct (any_search sr c m q s) as [[i|i]|] eqn:E; [| |apply fine_none].
      + apply any_found in E as [a [e [cc [-> [<- Es]]]]]. cbn [cop_run obind]. unfold put, search. rewrite vec_get_app. cbn [obind].
        rewrite vec_set_app. cbn [obind]. apply fine_done; cbn; [|exact I]. apply typed_mid in T as [T1 [_ T3]]. split.
        * eapply grouped_stats; [|exact G]. rewrite !map_app. reflexivity.
        * apply typed_mid. split; [exact T1|]. split; [|exact T3]. unfold ok_entry, ok_buf. cbn. rewrite (icmp_ty _ _ Es). exact S2.
      + apply any_missing in E as [a [cc [-> [<- [F1 F2]]]]]; [|exact G]. cbn [cop_run obind]. unfold put, search.
        rewrite vec_insert_app. cbn [obind]. apply fine_done; cbn; [|exact I]. apply typed_app in T as [T1 T2]. split.
        * apply grouped_insert; assumption.
        * apply typed_mid. auto.
    - destruct (any_search sr c m q s) as [[i|i]|] eqn:E; [| |apply fine_none].
      + apply any_found in E as [a [e [cc [-> [<- Es]]]]]. cbn [cop_run]. unfold update, search. rewrite vec_get_app. cbn [obind].
        apply typed_mid in T as [T1 [T2 T3]]. destruct (S _ (ok_entry_okb e _ T2 (icmp_ty _ _ Es))) as [S1 S2].
        destruct (f (e_val e)) as [b|p| |]; cbn [obind]; auto using fine_panics, fine_nofuel; [|congruence].
        rewrite vec_set_app. cbn [obind]. apply fine_done; cbn; [|exact I]. split.
        * eapply grouped_stats; [|exact G]. rewrite !map_app. reflexivity.
        * apply typed_mid. split; [exact T1|]. split; [|exact T3]. unfold ok_entry, ok_buf. cbn. rewrite (icmp_ty _ _ Es). apply (S2 b eq_refl).
      + cbn. apply fine_done; auto.
    - destruct S as [Sf [Sd1 Sd2]]. destruct (any_search sr c m q s) as [[i|i]|] eqn:E; [| |apply fine_none].
      + apply any_found in E as [a [e [cc [-> [<- Es]]]]]. cbn [cop_run]. unfold upsert, search. rewrite vec_get_app. cbn [obind].
        apply typed_mid in T as [T1 [T2 T3]]. destruct (Sf _ (ok_entry_okb e _ T2 (icmp_ty _ _ Es))) as [S1 S2].
        destruct (f (e_val e)) as [b|p| |]; cbn [obind]; auto using fine_panics, fine_nofuel; [|congruence].
        rewrite vec_set_app. cbn [obind]. apply fine_done; cbn; [|exact I]. split.
        * eapply grouped_stats; [|exact G]. rewrite !map_app. reflexivity.
        * apply typed_mid. split; [exact T1|]. split; [|exact T3]. unfold ok_entry, ok_buf. cbn. rewrite (icmp_ty _ _ Es). apply (S2 b eq_refl).
      + apply any_missing in E as [a [cc [-> [<- [F1 F2]]]]]; [|exact G]. cbn [cop_run]. unfold upsert, search.
        destruct d as [b|p| |]; cbn [obind]; auto using fine_panics, fine_nofuel; [|congruence].
        rewrite vec_insert_app. cbn [obind]. apply fine_done; cbn; [|exact I]. apply typed_app in T as [T1 T2]. split.
        * apply grouped_insert; assumption.
        * apply typed_mid. split; [exact T1|]. split; [apply (Sd2 b eq_refl)|exact T2].
    - destruct (any_search sr c m q s) as [[i|i]|] eqn:E; [| |apply fine_none].
      + apply any_found in E as [a [e [cc [-> [<- Es]]]]]. cbn [cop_run]. unfold take, search. rewrite vec_remove_app. cbn [obind fst snd].
        apply typed_mid in T as [T1 [T2 T3]]. apply fine_done; cbn.
        * split; [apply (grouped_delete a [e] cc G)|apply typed_app; auto].
        * intros b H. inversion H; subst. apply (ok_entry_okb e _ T2 (icmp_ty _ _ Es)).
      + cbn. apply fine_done; [exact GT|]. cbn. discriminate.
    - cbn [cop_run]. unfold drain. destruct (grouped_cut m s G) as [a [b [cc [-> [-> Hb]]]]]. cbn.
      apply typed_app in T as [T1 T]. apply typed_app in T as [T2 T3]. apply fine_done; cbn; [|exact I].
      split; [eapply grouped_delete; exact G|]. apply typed_app; auto.
    - cbn [cop_run]. unfold update_slice. destruct (grouped_cut m s G) as [a [b [cc [-> [-> Hb]]]]]. cbn [obind fst snd].
      apply typed_app in T as [T1 T]. apply typed_app in T as [T2 T3].
      destruct (each_safe s f b Hb T2 S) as [K1 K2].
      destruct (update_each _ b) as [b'|p| |] eqn:F; cbn [obind]; auto using fine_panics, fine_nofuel; [|congruence].
      apply fine_done; cbn; [|exact I]. split.
      + pose proof (update_each_keys _ _ _ F) as Ky. eapply grouped_stats; [|exact G]. rewrite !map_app. f_equal. f_equal.
        assert (Ks : forall l : map_t, map e_stat l = map fst (map ekey l)) by (intros l; rewrite map_map; reflexivity).
        rewrite !Ks, Ky. reflexivity.
      + apply typed_app. split; [exact T1|]. apply typed_app. split; [apply K2; reflexivity|exact T3].
    - cbn. apply fine_done; cbn; [|exact I]. split; constructor.
    - destruct S as [S1 S2]. destruct l as [r|p| |]; cbn [obind]; auto using fine_panics, fine_nofuel; [|congruence].
      specialize (S2 r eq_refl). split; [discriminate|]. intros x ok Hx. inversion Hx; subst. cbn [x_map]. split; [|split; [|exact I]].
      + unfold typed. eapply Permutation_Forall; [apply (so_perm _ K)|]. apply Forall_app. auto.
      + intros J. eapply sorted_grouped, (so_order _ K), J.
  Qed.
  Lemma slice_good m s : good m -> exists l, slice bs m s = Done l /\ typed l /\ Forall (fun e => inst_cmp (e_stat e) s = Eq) l.
  Proof.
    intros [G T]. unfold slice. destruct (grouped_cut m s G) as [a [b [cc [-> [-> Hb]]]]]. exists b. cbn. split; [reflexivity|].
    apply typed_app in T as [_ T]. apply typed_app in T as [T _]. auto.
  Qed.
  Lemma find_good c m q s : good m -> any_find sr c m q s = Panics PUser \/ any_find sr c m q s = Done None \/
    exists b, any_find sr c m q s = Done (Some b) /\ okb (tyof s) b.
  Proof.
    intros [G T]. unfold any_find. destruct (any_search sr c m q s) as [[i|i]|] eqn:E; [|auto|auto].
    right. right. apply any_found in E as [a [e [cc [-> [<- Es]]]]]. unfold find, search. rewrite vec_get_app. cbn [obind].
    apply typed_mid in T as [_ [T _]]. exists (e_val e). split; [reflexivity|]. apply (ok_entry_okb e _ T (icmp_ty _ _ Es)).
  Qed.
  Lemma read_each_good s (l : map_t) : typed l -> Forall (fun e => inst_cmp (e_stat e) s = Eq) l -> exists r, read_each (tyof s) l = Done r.
  Proof.
    intros T H. induction l as [|e l IH]; cbn [read_each]; [eauto|]. inversion H as [|? ? Es H']; subst. inversion T as [|? ? Te T']; subst.
    destruct (okb_inv _ _ (ok_entry_okb e _ Te (icmp_ty _ _ Es))) as [v [-> Hok]]. rewrite buf_ref_ok by exact Hok. cbn [obind].
    destruct (IH T' H') as [r ->]. cbn [obind]. eauto.
  Qed.
  Lemma stream_good m x s b : (forall t a b, sv_join (VT P t) a b <> UB) -> good m -> okb (tyof s) b ->
    map_stream bs m x (Pair s b) <> UB /\ forall p, map_stream bs m x (Pair s b) = Done p -> p_stat p = s /\ okb (tyof s) (p_buf p).
  Proof.
    intros J GT Hb. unfold map_stream. cbn [p_stat]. destruct (slice_good m s GT) as [l [-> [T H]]]. cbn [obind]. clear GT m.
    revert b Hb. induction l as [|e l IH]; intros b Hb; cbn [ofold].
    - split; [discriminate|]. intros p Hp. inversion Hp; subst. auto.
    - inversion H as [|? ? Es H']; subst. inversion T as [|? ? Te T']; subst. destruct (qualifies_as (e_qual e) x); cbn [p_stat p_buf obind]; [|apply IH; auto].
      destruct (okb_inv _ _ Hb) as [v [-> Hok]]. destruct (okb_inv _ _ (ok_entry_okb e _ Te (icmp_ty _ _ Es))) as [w [-> _]].
      rewrite vt_join_ok by exact Hok. pose proof (J (tyof s) v w) as Jv. destruct (sv_join (VT P (tyof s)) v w) as [r|p| |]; cbn [obind]; try (split; [congruence|intros; discriminate]).
      apply IH; auto; split; auto.
  Qed.
End Together.
