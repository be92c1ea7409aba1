From Coq Require Import ZArith List Bool Lia.
From Verif Require Import M_Outcome M_Ints M_Value M_Types M_Stat M_Pair S_StatMap S_Pair S_Demo L_StatMap L_Demo.
Import ListNotations.
Local Open Scope Z_scope.

Lemma C41_equality_proof :
  forall (P : Prog) (a b : inst P), distinct_vtables P ->
  (inst_eqb a b = true <-> si_ty a = si_ty b /\ si_index a = si_index b) /\
  (inst_eqb a b = true <-> inst_cmp a b = Eq) /\
  (inst_eqb a b = true <-> inst_hash a = inst_hash b).
Proof.
  intros P a b Hd. unfold inst_eqb, inst_cmp, inst_hash. destruct a as [ta ia], b as [tb ib]; cbn.
  split; [|split].
  - rewrite andb_true_iff, !Z.eqb_eq. split; [intros [-> H]; split; [apply Hd; exact H|reflexivity]|intros [-> ->]; split; reflexivity].
  - rewrite andb_true_iff, !Z.eqb_eq. destruct (Z.compare_spec (vt_addr P ta) (vt_addr P tb)).
    + rewrite Z.compare_eq_iff. tauto.
    + split; [lia|discriminate].
    + split; [lia|discriminate].
  - rewrite andb_true_iff, !Z.eqb_eq. split; [intros [-> ->]; reflexivity|intros H; injection H; auto].
Qed.

Lemma C41_operators_proof :
  forall (P : Prog) (a b : inst P),
  (inst_ltb a b = true <-> inst_cmp a b = Lt) /\
  (inst_leb a b = true <-> inst_cmp a b = Lt \/ inst_eqb a b = true) /\
  (inst_ltb a b = true <-> inst_leb b a = false).
Proof.
  intros P [ta ia] [tb ib]. unfold inst_ltb, inst_leb, inst_cmp, inst_eqb. cbn.
  rewrite (Z.compare_antisym (vt_addr P ta) (vt_addr P tb)), (Z.compare_antisym ia ib).
  destruct (Z.compare_spec (vt_addr P ta) (vt_addr P tb)), (Z.compare_spec ia ib); cbn;
    rewrite ?andb_true_iff, ?Z.eqb_eq; repeat split; intros; try discriminate; try reflexivity; try tauto; try lia;
    try (destruct H1; [discriminate|lia]); intuition (try discriminate; try lia).
Qed.

Lemma C42_first_matching_arm_proof :
  forall (P : Prog) (D : StatTypes P) (R : Type) (s : inst P) (v : val (VT P (vt_value P (si_ty s))))
         (pre : list (arm P R)) (a : arm P R) (post : list (arm P R)) (miss : R) (out : outcome (pair P * R)),
  distinct_vtables P ->
  Forall (arm_ok D) (pre ++ [a]) -> s_from_index D (si_ty s) (si_index s) = Done (si_index s) ->
  Forall (fun b => ~ arm_for s b) pre -> arm_runs s v a out ->
  match_stat D (Pair s (Buf _ v)) (pre ++ a :: post) miss = out.
Proof.
  intros P D R s v pre a post miss out Hd Hok Hi Hpre Hrun.
  assert (Hc : forall t (u : val (VT P t)), cast_val P t (Buf t u) = Done u).
  { intros t u. unfold cast_val. cbn. destruct (vty_dec P t t) as [e|e]; [|congruence].
    rewrite <- (Eqdep_dec.eq_rect_eq_dec (vty_dec P)). reflexivity. }
  induction pre as [|b pre IH]; cbn [app].
  - inversion Hok; subst. destruct Hrun; cbn [match_stat].
    + unfold pair_cast, validate_stat. cbn in H1. unfold good_stat in H1. rewrite H1. cbn [obind p_stat p_buf].
      rewrite Z.eqb_refl, Hi. cbn [obind]. rewrite Hc. cbn [obind]. destruct (body (si_index s) v); reflexivity.
    + unfold pair_is_then_cast, validate_stat. cbn in H1. unfold good_stat in H1. rewrite H1. cbn [obind p_stat p_buf].
      unfold inst_eqb. rewrite !Z.eqb_refl. cbn [andb]. rewrite Hc. cbn [obind]. destruct (body v); reflexivity.
    + reflexivity.
  - inversion Hok; subst. inversion Hpre; subst. specialize (IH H2 H4).
    destruct b as [t body|o body|body]; cbn [match_stat].
    + unfold pair_cast, validate_stat. cbn in H1, H3. unfold good_stat in H1. rewrite H1. cbn [obind p_stat].
      destruct (Z.eqb_spec (vt_addr P (si_ty s)) (vt_addr P t)) as [e|e]; [|exact IH].
      exfalso. apply H3, Hd, e.
    + unfold pair_is_then_cast, validate_stat. cbn in H1, H3. unfold good_stat in H1. rewrite H1. cbn [obind p_stat].
      destruct (inst_eqb s o) eqn:E; [|exact IH].
      exfalso. apply H3. unfold inst_eqb in E. rewrite andb_true_iff, !Z.eqb_eq in E. destruct s, o, E as [E1 E2]; cbn in *.
      rewrite E1. f_equal. apply Hd, E2.
    + exfalso. apply H3. exact I.
Qed.

Lemma C42_no_arm_proof :
  forall (P : Prog) (D : StatTypes P) (R : Type) (s : inst P) (v : val (VT P (vt_value P (si_ty s))))
         (l : list (arm P R)) (miss : R),
  distinct_vtables P -> Forall (arm_ok D) l -> Forall (fun b => ~ arm_for s b) l ->
  match_stat D (Pair s (Buf _ v)) l miss = Done (Pair s (Buf _ v), miss).
Proof.
  intros P D R s v l miss Hd Hok Hpre. induction l as [|b l IH]; [reflexivity|].
  inversion Hok; subst. inversion Hpre; subst. specialize (IH H2 H4).
  destruct b as [t body|o body|body]; cbn [match_stat].
  - unfold pair_cast, validate_stat. cbn in H1, H3. unfold good_stat in H1. rewrite H1. cbn [obind p_stat].
    destruct (Z.eqb_spec (vt_addr P (si_ty s)) (vt_addr P t)) as [e|e]; [|exact IH].
    exfalso. apply H3, Hd, e.
  - unfold pair_is_then_cast, validate_stat. cbn in H1, H3. unfold good_stat in H1. rewrite H1. cbn [obind p_stat].
    destruct (inst_eqb s o) eqn:E; [|exact IH].
    exfalso. apply H3. unfold inst_eqb in E. rewrite andb_true_iff, !Z.eqb_eq in E. destruct s, o, E as [E1 E2]; cbn in *.
    rewrite E1. f_equal. apply Hd, E2.
  - exfalso. apply H3. exact I.
Qed.

Lemma C42_runs_first_matching_arm_refuted_proof :
  exists (P : Prog) (D : StatTypes P) (s : inst P) (v : val (VT P (vt_value P (si_ty s)))) (a : arm P nat) (b : arm P nat),
  distinct_vtables P /\ (forall t i, s_from_index D t i = Done i) /\ (forall t, validate_ty P t = Done tt) /\
  ~ arm_for s a /\ arm_runs s v b (Done (Pair s (Buf _ v), 1%nat)) /\
  match_stat D (Pair s (Buf _ v)) [a; b] 0%nat = Panics PSize.
Proof.
  exists demo, demoBig, hp, (num 1), (@AIs demo nat atk (fun v => Done (v, 0%nat))), (@AIs demo nat hp (fun v => Done (v, 1%nat))).
  split; [exact demo_distinct|]. split; [reflexivity|]. split; [intros []; reflexivity|].
  split; [discriminate|]. split; [exact (runs_is (P := demo) hp (num 1) (fun v => Done (v, 1%nat)))|reflexivity].
Qed.

Lemma C43_safe_code_keeps_pair_typed_proof :
  forall (P : Prog) (D : StatTypes P) (l : list (pair_op P)) (p : pair P),
  distinct_vtables P -> index_sound D -> Forall (pair_op_sound D) l -> pair_ok p ->
  pair_steps D p l <> UB /\ forall p', pair_steps D p l = Done p' -> pair_ok p'.
Proof.
  intros P D l p Hd Hi Hl. revert p. unfold pair_steps.
  assert (Hv : forall n m, validate n m <> UB) by (intros; unfold validate; destruct (_ || _); [destruct (_ <? _)|]; discriminate).
  assert (Hcast : forall p s, pair_ok p -> pair_cast D p s <> UB).
  { intros p s Hp. unfold pair_cast, validate_stat. specialize (Hv (s_size D s) (s_align D s)).
    destruct (validate _ _); cbn [obind]; try congruence.
    destruct (Z.eqb_spec (vt_addr P (si_ty (p_stat p))) (vt_addr P s)) as [e|e]; [|discriminate].
    specialize (Hi s (si_index (p_stat p))). destruct (s_from_index _ _ _); cbn [obind]; try congruence.
    unfold cast_val. destruct (vty_dec P (b_ty (p_buf p)) (vt_value P s)) as [e'|e']; cbn [obind]; [discriminate|].
    exfalso. apply e'. rewrite Hp. f_equal. apply Hd, e. }
  assert (Hcast1 : forall p s r, pair_cast D p s = Done (Some r) -> si_ty (p_stat p) = s).
  { intros p s r. unfold pair_cast. destruct (validate_stat _ _); cbn [obind]; try congruence.
    destruct (Z.eqb_spec (vt_addr P (si_ty (p_stat p))) (vt_addr P s)) as [e|e]; [|discriminate]. intros _. apply Hd, e. }
  assert (His : forall p o, pair_ok p -> pair_is_then_cast D p o <> UB).
  { intros p o Hp. unfold pair_is_then_cast, validate_stat. specialize (Hv (s_size D (si_ty o)) (s_align D (si_ty o))).
    destruct (validate _ _); cbn [obind]; try congruence.
    destruct (inst_eqb (p_stat p) o) eqn:E; [|discriminate].
    unfold inst_eqb in E. rewrite andb_true_iff, !Z.eqb_eq in E. destruct E as [_ E].
    unfold cast_val. destruct (vty_dec P (b_ty (p_buf p)) (vt_value P (si_ty o))) as [e'|e']; cbn [obind]; [discriminate|].
    exfalso. apply e'. rewrite Hp. f_equal. apply Hd, E. }
  assert (His1 : forall p o r, pair_is_then_cast D p o = Done (Some r) -> si_ty (p_stat p) = si_ty o).
  { intros p o r. unfold pair_is_then_cast. destruct (validate_stat _ _); cbn [obind]; try congruence.
    destruct (inst_eqb (p_stat p) o) eqn:E; [|discriminate]. intros _.
    unfold inst_eqb in E. rewrite andb_true_iff, !Z.eqb_eq in E. apply Hd, E. }
  assert (Hm : forall (arms : list (arm P unit)) p, Forall arm_sound arms -> pair_ok p ->
    match_stat D p arms tt <> UB /\ forall r, match_stat D p arms tt = Done r -> pair_ok (fst r)).
  { induction arms as [|a arms IH]; intros p Ha Hp; [split; [discriminate|intros r E; injection E as <-; exact Hp]|].
    inversion Ha; subst. specialize (IH p H2 Hp). destruct a as [t body|o body|body]; cbn [match_stat] in *.
    - specialize (Hcast p t Hp). specialize (Hcast1 p t). destruct (pair_cast D p t) as [[[i v]|]| | |]; cbn [obind]; try (split; [congruence|congruence]); [|exact IH].
      cbn in H1. specialize (H1 i v). destruct (body i v) as [r| | |]; cbn [obind]; split; try congruence.
      intros q E. injection E as <-. unfold pair_ok. cbn. rewrite (Hcast1 (i, v) eq_refl). reflexivity.
    - specialize (His p o Hp). specialize (His1 p o). destruct (pair_is_then_cast D p o) as [[v|]| | |]; cbn [obind]; try (split; [congruence|congruence]); [|exact IH].
      cbn in H1. specialize (H1 v). destruct (body v) as [r| | |]; cbn [obind]; split; try congruence.
      intros q E. injection E as <-. unfold pair_ok. cbn. rewrite (His1 v eq_refl). reflexivity.
    - cbn in H1. specialize (H1 p Hp) as [Hnu Hk]. split; [exact Hnu|]. intros [p' []] E. apply (Hk p' tt E). }
  assert (Hstep : forall o p, pair_op_sound D o -> pair_ok p -> pair_step D p o <> UB /\ forall p', pair_step D p o = Done p' -> pair_ok p').
  { intros o p Ho Hp. destruct o as [arms|s f|o f|s v|s]; cbn [pair_step pair_op_sound] in *.
    - destruct (Hm arms p Ho Hp) as [H1 H2]. destruct (match_stat D p arms tt); cbn [obind]; split; try congruence.
      intros p' E. injection E as <-. apply H2. reflexivity.
    - specialize (Hcast p s Hp). specialize (Hcast1 p s). destruct (pair_cast D p s) as [[[i v]|]| | |]; cbn [obind]; try (split; congruence).
      specialize (Ho v). destruct (f v); cbn [obind]; split; try congruence.
      intros p' E. injection E as <-. unfold pair_ok. cbn. rewrite (Hcast1 (i, v) eq_refl). reflexivity.
    - specialize (His p o Hp). specialize (His1 p o). destruct (pair_is_then_cast D p o) as [[v|]| | |]; cbn [obind]; try (split; congruence).
      specialize (Ho v). destruct (f v); cbn [obind]; split; try congruence.
      intros p' E. injection E as <-. unfold pair_ok. cbn. rewrite (His1 v eq_refl). reflexivity.
    - unfold pair_new, buf_from, validate_ty. specialize (Hv (v_size P (vt_value P (si_ty s))) (v_align P (vt_value P (si_ty s)))).
      destruct (validate _ _); cbn [obind]; split; try congruence. intros p' E. injection E as <-. reflexivity.
    - unfold pair_new_default, pair_new, buf_from, validate_ty. specialize (Hv (v_size P (vt_value P (si_ty s))) (v_align P (vt_value P (si_ty s)))).
      destruct (validate _ _); cbn [obind]; split; try congruence. intros p' E. injection E as <-. reflexivity. }
  induction l as [|o l IH]; intros p Hp; cbn [ofold].
  - split; [discriminate|]. intros p' E. injection E as <-. exact Hp.
  - inversion Hl; subst. destruct (Hstep o p H1 Hp) as [S1 S2].
    destruct (pair_step D p o) as [p1| | |]; cbn [obind]; try (split; congruence). apply IH; auto.
Qed.

Lemma C43_typed_result_if_stat_kept_proof :
  forall (P : Prog) (D : StatTypes P) (l : list (pair_op P)) (s : inst P) (v : val (VT P (vt_value P (si_ty s)))) (p' : pair P),
  distinct_vtables P -> index_sound D -> Forall (pair_op_sound D) l -> Forall keeps_stat l ->
  pair_steps D (Pair s (Buf _ v)) l = Done p' ->
  exists w, p' = Pair s (Buf (vt_value P (si_ty s)) w).
Proof.
  intros P D l s v p' Hd Hi Hl Hk E.
  destruct (C43_safe_code_keeps_pair_typed_proof P D l (Pair s (Buf _ v)) Hd Hi Hl eq_refl) as [_ H]. specialize (H p' E).
  assert (Hs : p_stat p' = s).
  { clear H Hl Hi Hd. remember (Pair s (Buf _ v)) as p. assert (H : p_stat p = s) by (subst; reflexivity). clear Heqp v. revert p E H.
    unfold pair_steps. induction l as [|o l IH]; intros p E H; cbn [ofold] in E; [injection E as <-; exact H|].
    inversion Hk; subst.
    assert (Hs : forall p1, pair_step D p o = Done p1 -> p_stat p1 = p_stat p).
    { intros p1 E1. destruct o as [arms|s f|o f|s v|s]; cbn [pair_step keeps_stat] in *; try contradiction.
      - destruct (match_stat D p arms tt) as [r| | |] eqn:Er; cbn [obind] in E1; try discriminate. injection E1 as <-.
        clear IH E Hk. induction arms as [|a arms IHa]; [injection Er as <-; reflexivity|].
        inversion H2; subst. destruct a as [t body|o body|body]; cbn [match_stat] in Er.
        + destruct (pair_cast D p t) as [[[i w]|]| | |]; cbn [obind] in Er; try discriminate; [|apply IHa; assumption].
          destruct (body i w); cbn [obind] in Er; try discriminate. injection Er as <-. reflexivity.
        + destruct (pair_is_then_cast D p o) as [[w|]| | |]; cbn [obind] in Er; try discriminate; [|apply IHa; assumption].
          destruct (body w); cbn [obind] in Er; try discriminate. injection Er as <-. reflexivity.
        + destruct r as [p1 []]. cbn. apply (H1 p p1 tt Er).
      - destruct (pair_cast D p s) as [[[i w]|]| | |]; cbn [obind] in E1; try discriminate; [|injection E1 as <-; reflexivity].
        destruct (f w); cbn [obind] in E1; try discriminate. injection E1 as <-. reflexivity.
      - destruct (pair_is_then_cast D p o) as [[w|]| | |]; cbn [obind] in E1; try discriminate; [|injection E1 as <-; reflexivity].
        destruct (f w); cbn [obind] in E1; try discriminate. injection E1 as <-. reflexivity. }
    destruct (pair_step D p o) as [p1| | |]; cbn [obind] in E; try discriminate.
    apply (IH H3 p1 E (Hs p1 eq_refl)). }
  destruct p' as [s' [t w]]. unfold pair_ok in H. cbn in H, Hs. subst s' t. exists w. reflexivity.
Qed.

Lemma C43_typed_result_refuted_proof :
  exists (P : Prog) (D : StatTypes P) (s : inst P) (p : pair P) (l : list (pair_op P)) (p' : pair P),
  distinct_vtables P /\ index_sound D /\ Forall (pair_op_sound D) l /\ pair_ok p /\ p_stat p = s /\
  pair_steps D p l = Done p' /\ buf_into P (vt_value P (si_ty s)) (p_buf p') = UB.
Proof.
  exists demo, demoT, hp, (hp_pair 1), [@OReplace demo alive true]. eexists.
  split; [exact demo_distinct|]. split; [intros s i; cbn; destruct (_ && _); discriminate|].
  split; [repeat constructor|]. split; [reflexivity|]. split; [reflexivity|]. split; reflexivity.
Qed.

(** C55 *)
Lemma inst_same {P} (D : distinct_vtables P) (a b : inst P) : inst_eqb a b = true <-> a = b.
Proof.
  destruct a as [ta ia], b as [tb ib]. unfold inst_eqb. cbn. rewrite andb_true_iff, !Z.eqb_eq.
  split; [intros [-> H]; rewrite (D _ _ H); reflexivity|intros H; injection H as -> ->; auto].
Qed.
Lemma cast_val_own {P} t (u : val (VT P t)) : cast_val P t (Buf t u) = Done u.
Proof.
  unfold cast_val. cbn. destruct (vty_dec P t t) as [e|e]; [|congruence].
  rewrite <- (Eqdep_dec.eq_rect_eq_dec (vty_dec P)). reflexivity.
Qed.
Lemma downcast_own {P} t (u : val (VT P t)) : downcast t t u = Some u.
Proof.
  unfold downcast. destruct (vty_dec P t t) as [e|e]; [|congruence].
  rewrite <- (Eqdep_dec.eq_rect_eq_dec (vty_dec P)). reflexivity.
Qed.

Lemma C55_is_proof :
  forall (P : Prog), distinct_vtables P ->
  (forall (p : pair P) (s : inst P), pair_is p s = true <-> p_stat p = s) /\
  (forall a b : inst P, stat_is a b = true <-> a = b).
Proof. intros P Hd. split; intros; apply (inst_same Hd). Qed.

Lemma C55_is_then_cast_proof :
  forall (P : Prog) (D : StatTypes P) (s : inst P) (v : val (VT P (vt_value P (si_ty s)))) (o : inst P),
  distinct_vtables P ->
  (good_stat D (si_ty s) -> pair_is_then_cast D (Pair s (Buf _ v)) s = Done (Some v)) /\
  (good_stat D (si_ty o) -> s <> o -> pair_is_then_cast D (Pair s (Buf _ v)) o = Done None).
Proof.
  intros P D s v o Hd. unfold good_stat, pair_is_then_cast, validate_stat. split.
  - intros ->. cbn [obind p_stat p_buf]. rewrite (proj2 (inst_same Hd s s) eq_refl), cast_val_own. reflexivity.
  - intros -> N. cbn [obind p_stat p_buf]. destruct (inst_eqb s o) eqn:E; [|reflexivity].
    exfalso. apply N, (inst_same Hd), E.
Qed.

Lemma C55_cast_proof :
  forall (P : Prog) (D : StatTypes P) (s : inst P) (v : val (VT P (vt_value P (si_ty s)))) (t : sty P),
  distinct_vtables P ->
  (good_stat D (si_ty s) -> s_from_index D (si_ty s) (si_index s) = Done (si_index s) ->
   pair_cast D (Pair s (Buf _ v)) (si_ty s) = Done (Some (si_index s, v))) /\
  (good_stat D t -> si_ty s <> t -> pair_cast D (Pair s (Buf _ v)) t = Done None).
Proof.
  intros P D s v t Hd. unfold good_stat, pair_cast, validate_stat. split.
  - intros -> Hi. cbn [obind p_stat p_buf]. rewrite Z.eqb_refl, Hi. cbn [obind]. rewrite cast_val_own. reflexivity.
  - intros -> N. cbn [obind p_stat p_buf]. destruct (Z.eqb_spec (vt_addr P (si_ty s)) (vt_addr P t)) as [e|e]; [|reflexivity].
    exfalso. apply N, Hd, e.
Qed.

Lemma C55_into_result_proof :
  forall (P : Prog) (D : StatTypes P) (s : inst P) (v : val (VT P (vt_value P (si_ty s)))) (t : sty P),
  distinct_vtables P ->
  (good_stat D (si_ty s) -> validate_ty P (vt_value P (si_ty s)) = Done tt ->
   pair_into_result D (Pair s (Buf _ v)) (si_ty s) = Done (Some v)) /\
  (good_stat D t -> si_ty s <> t -> pair_into_result D (Pair s (Buf _ v)) t = Done None).
Proof.
  intros P D s v t Hd. unfold good_stat, pair_into_result, validate_stat. split.
  - intros -> Hv. cbn [obind p_stat p_buf]. rewrite Z.eqb_refl. unfold buf_into, buf_ref. rewrite Hv. cbn [obind].
    rewrite cast_val_own. reflexivity.
  - intros -> N. cbn [obind p_stat p_buf]. destruct (Z.eqb_spec (vt_addr P (si_ty s)) (vt_addr P t)) as [e|e]; [|reflexivity].
    exfalso. apply N, Hd, e.
Qed.

Lemma C55_unerased_proof :
  forall (P : Prog) (a : inst P) (v : val (VT P (vt_value P (si_ty a)))),
  distinct_vtables P ->
  ext_cast a v (si_ty a) = Some (si_index a, v) /\
  (forall t, si_ty a <> t -> ext_cast a v t = None) /\
  ext_is_then_cast a v a = Some v /\
  (forall o, a <> o -> ext_is_then_cast a v o = None).
Proof.
  intros P a v Hd. unfold ext_cast, ext_is_then_cast, stat_is. repeat split.
  - destruct (sty_dec P (si_ty a) (si_ty a)); [|congruence]. rewrite downcast_own. reflexivity.
  - intros t N. destruct (sty_dec P (si_ty a) t); [congruence|reflexivity].
  - rewrite (proj2 (inst_same Hd a a) eq_refl). apply downcast_own.
  - intros o N. destruct (inst_eqb a o) eqn:E; [|reflexivity]. exfalso. apply N, (inst_same Hd), E.
Qed.
