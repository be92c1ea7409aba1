From Coq Require Import String ZArith Lia Bool List Permutation.
From Flocq Require Import Core BinarySingleNaN.
From Verif Require Import M_Outcome M_Ints M_Ratio M_Float M_Value M_Types M_Qualifier M_Search M_Stat M_StatMap M_HashMap M_Pair M_Registry M_Defaults M_Querier M_Poison M_Serde M_ValueSerde
  S_Search S_StatMap S_Registry S_Serde S_Totals S_ValueSerde
  L_Outcome L_Ints L_StatMap L_StatMap2 L_StatMap3 L_StatMap4 L_StatMap5 L_Serde L_SerdeProofs L_ValueSerde L_ValueSerde2.
Import ListNotations.
Local Open Scope Z_scope.

(** ** Flags, once, priority *)
Definition lowbits t := if signed t then bits t - 1 else bits t.
Lemma small_shift t z : small t z <-> Z.shiftr z (lowbits t) = 0 \/ signed t = true /\ Z.shiftr z (lowbits t) = -1.
Proof.
  rewrite small_ok. unfold ity_ok, imin, imax, lowbits. assert (B : 0 < bits t) by (destruct t; reflexivity).
  destruct (signed t) eqn:S; rewrite Z.shiftr_div_pow2 by lia.
  - assert (H : 0 < 2 ^ (bits t - 1)) by (apply Z.pow_pos_nonneg; lia). set (m := 2 ^ (bits t - 1)) in *. split.
    + intros [H1 H2]. destruct (Z.le_gt_cases 0 z); [left; apply Z.div_small; lia|right; split; [reflexivity|]]. symmetry. apply (Z.div_unique z m (-1) (z + m)); lia.
    + pose proof (Z.div_mod z m ltac:(lia)). pose proof (Z.mod_pos_bound z m H). intros [E|[_ E]]; rewrite E in *; lia.
  - assert (H : 0 < 2 ^ bits t) by (apply Z.pow_pos_nonneg; lia). set (m := 2 ^ bits t) in *. split.
    + intros [H1 H2]. left. apply Z.div_small. lia.
    + pose proof (Z.div_mod z m ltac:(lia)). pose proof (Z.mod_pos_bound z m H). intros [E|[E' _]]; [rewrite E in *; lia|discriminate].
Qed.
Lemma small_lor t a b : small t a -> small t b -> small t (Z.lor a b).
Proof.
  rewrite !small_shift, Z.shiftr_lor. intros [A|[S A]] [B|[S' B]]; rewrite A, B; auto.
Qed.
Lemma built_flags t (h : history (statFlags zflags)) v :
  operands (flag_op t) h -> value_of h = Done v -> small t (f_not v) /\ small t (f_or v).
Proof.
  apply (kept (S:=statFlags zflags) (flag_op t) (fun v => small t (f_not v) /\ small t (f_or v))).
  - split; apply small_0.
  - intros b Hb. split; [apply small_0|exact Hb].
  - intros [x|x|x|x|x|x|x] u w Ho Hu; try (destruct x; fail); intros H; injection H as <-; destruct Hu as [H1 H2].
    + split; [exact H1|apply small_lor; assumption].
    + split; [apply small_lor; assumption|exact H2].
    + split; [apply small_0|exact Ho].
  - intros u v' w [A1 A2] [B1 B2] H; injection H as <-. split; apply small_lor; assumption.
Qed.
Lemma built_once A (LA : leaf A) (h : history (statOnce A)) v :
  operands (once_op LA) h -> value_of h = Done v -> forall a, v = Found a -> back LA a.
Proof.
  apply (kept (S:=statOnce A) _ (fun v => forall a, v = Found a -> back LA a)).
  - discriminate.
  - intros b Hb a E; injection E as <-. exact Hb.
  - intros [x|x|x|x|x|x|x] u w Ho Hu; try (destruct x; fail); intros H; injection H as <-.
    + destruct u as [|z|]; cbn; intros a E; try discriminate. injection E as <-. exact Ho.
    + exact Hu.
    + intros a E; injection E as <-. exact Ho.
  - intros u v' w Hu Hv H; injection H as <-. destruct u, v'; cbn; auto; discriminate.
Qed.
Lemma built_prio A (LA : leaf A) d last (h : history (prioritized A d last)) v : back LA d ->
  operands (prio_op LA d last) h -> value_of h = Done v -> back LA (p_value v) /\ small I32 (p_priority v).
Proof.
  intros Hd. apply (kept (S:=prioritized A d last) _ (fun v => back LA (p_value v) /\ small I32 (p_priority v))).
  - split; [exact Hd|reflexivity].
  - intros b Hb. exact Hb.
  - intros [x|x|x|x|x|x|x] u w Ho Hu; try (destruct x; fail); intros H; injection H as <-; try exact Hu. exact Ho.
  - intros u v' w [A1 A2] [B1 B2] H; injection H as <-. destruct last; [destruct (p_priority u <=? p_priority v')|destruct (p_priority u <? p_priority v')]; cbn; auto.
Qed.

(** ** Maps *)
Section Maps.
  Context {P : Prog} {Q : QFlag}.
  Variable bs : list comparison -> bsres.
  Variable K : forall t, val (VT P t) -> Prop.
  Definition kbuf (b : buffer P) : Prop := match b with Buf t v => K t v end.
  Definition kmap (m : map_t P Q) : Prop := Forall (fun e => kbuf (e_val e)) m.
  Lemma kmap_firstn n m : kmap m -> kmap (firstn n m).
  Proof. unfold kmap. rewrite !Forall_forall. intros H e He. apply H. rewrite <- (firstn_skipn n m). apply in_or_app; auto. Qed.
  Lemma kmap_skipn n m : kmap m -> kmap (skipn n m).
  Proof. unfold kmap. rewrite !Forall_forall. intros H e He. apply H. rewrite <- (firstn_skipn n m). apply in_or_app; auto. Qed.
  Lemma kmap_app m m' : kmap (m ++ m') <-> kmap m /\ kmap m'.
  Proof. apply Forall_app. Qed.
  Lemma kmap_cons e m : kmap (e :: m) <-> kbuf (e_val e) /\ kmap m.
  Proof. apply Forall_cons_iff. Qed.
  Lemma kmap_get m i e : kmap m -> vec_get m i = Done e -> kbuf (e_val e).
  Proof. unfold vec_get, kmap. rewrite Forall_forall. destruct (nth_error m i) eqn:E; [|discriminate]. intros H X; injection X as <-. apply H. eapply nth_error_In; exact E. Qed.
  Lemma kmap_set m i e m' : kmap m -> kbuf (e_val e) -> vec_set m i e = Done m' -> kmap m'.
  Proof.
    unfold vec_set. destruct (Nat.ltb i (List.length m)); [|discriminate]. intros H He X; injection X as <-.
    apply kmap_app. split; [apply kmap_firstn, H|]. apply kmap_cons. split; [exact He|apply (kmap_skipn (S i)), H].
  Qed.
  Lemma kmap_insert m i e m' : kmap m -> kbuf (e_val e) -> vec_insert m i e = Done m' -> kmap m'.
  Proof.
    unfold vec_insert. destruct (Nat.leb i (List.length m)); [|discriminate]. intros H He X; injection X as <-.
    apply kmap_app. split; [apply kmap_firstn, H|]. apply kmap_cons. split; [exact He|apply kmap_skipn, H].
  Qed.
  Lemma kmap_cut m s c : kmap m -> cut bs m s = Done c -> kmap (fst (fst c)) /\ kmap (snd (fst c)) /\ kmap (snd c).
  Proof.
    unfold cut. destruct (_ && _); [|discriminate]. intros H X; injection X as <-. cbn [fst snd].
    split; [apply kmap_firstn, H|]. split; [apply kmap_firstn, kmap_skipn, H|apply kmap_skipn, H].
  Qed.
  Lemma kmap_sort m : kmap m -> kmap (sort m).
  Proof.
    intros H. unfold kmap. eapply Permutation_Forall; [symmetry; apply sort_perm|exact H].
  Qed.
  Lemma kmap_each f m m' : (forall q b b', kbuf b -> f q b = Done b' -> kbuf b') -> kmap m -> update_each f m = Done m' -> kmap m'.
  Proof.
    intros Hf. revert m'. induction m as [|e m IH]; intros m' H X; cbn in X; [injection X as <-; exact H|].
    apply kmap_cons in H as [He Hm]. destruct (f (e_qual e) (e_val e)) as [b| | |] eqn:E; cbn [obind] in X; try discriminate.
    destruct (update_each f m) as [r| | |]; cbn [obind] in X; try discriminate. injection X as <-.
    apply kmap_cons. split; [eapply Hf; [exact He|exact E]|apply IH; auto].
  Qed.
  Lemma kbuf_from t v b : K t v -> buf_from P t v = Done b -> kbuf b.
  Proof. unfold buf_from. destruct (validate_ty P t); cbn [obind]; try discriminate. intros H X; injection X as <-. exact H. Qed.
  Lemma kbuf_ref t b v : kbuf b -> buf_ref P t b = Done v -> K t v.
  Proof.
    unfold buf_ref. destruct (validate_ty P t); cbn [obind]; try discriminate. destruct b as [u x]. unfold cast_val. cbn [b_ty b_val kbuf]. destruct (vty_dec P u t) as [E|]; [|discriminate].
    destruct E. cbn. intros H X; injection X as <-. exact H.
  Qed.
  Lemma kbuf_mut t b f b' : (forall v w, K t v -> f v = Done w -> K t w) -> kbuf b -> buf_mut P t b f = Done b' -> kbuf b'.
  Proof.
    unfold buf_mut. intros Hf Hb X. destruct (buf_ref P t b) as [v| | |] eqn:E; cbn [obind] in X; try discriminate.
    destruct (f v) as [w| | |] eqn:E2; cbn [obind] in X; try discriminate. injection X as <-. exact (Hf v w (kbuf_ref _ _ _ Hb E) E2).
  Qed.
  Lemma kput m q s (d : outcome (buffer P)) x : kmap m -> (forall b, d = Done b -> kbuf b) -> cop_run bs m (CPut q s d) = Done x -> kmap (x_map x).
  Proof.
    intros Hm Hd X. cbn in X. destruct d as [b| | |]; cbn [obind] in X; try discriminate. specialize (Hd b eq_refl). unfold put in X.
    destruct (search bs m q s) as [i|i].
    - destruct (vec_get m i) as [e| | |]; cbn [obind] in X; try discriminate.
      destruct (vec_set m i _) as [m'| | |] eqn:E; cbn [obind fst snd] in X; try discriminate. injection X as <-. eapply kmap_set; [exact Hm| |exact E]. exact Hd.
    - destruct (vec_insert m i _) as [m'| | |] eqn:E; cbn [obind fst snd] in X; try discriminate. injection X as <-. eapply kmap_insert; [exact Hm| |exact E]. exact Hd.
  Qed.
  Lemma kupsert m q s f (d : outcome (buffer P)) x : kmap m -> (forall b b', kbuf b -> f b = Done b' -> kbuf b') -> (forall b, d = Done b -> kbuf b) ->
    cop_run bs m (CUpsert q s f d) = Done x -> kmap (x_map x).
  Proof.
    intros Hm Hf Hd X. cbn in X. unfold upsert in X. destruct (search bs m q s) as [i|i].
    - destruct (vec_get m i) as [e| | |] eqn:G; cbn [obind] in X; try discriminate. destruct (f (e_val e)) as [b| | |] eqn:F; cbn [obind] in X; try discriminate.
      destruct (vec_set m i _) as [m'| | |] eqn:E; cbn [obind fst snd] in X; try discriminate. injection X as <-. eapply kmap_set; [exact Hm| |exact E].
      eapply Hf; [eapply kmap_get; [exact Hm|exact G]|exact F].
    - destruct d as [b| | |]; cbn [obind] in X; try discriminate. specialize (Hd b eq_refl).
      destruct (vec_insert m i _) as [m'| | |] eqn:E; cbn [obind fst snd] in X; try discriminate. injection X as <-. eapply kmap_insert; [exact Hm| |exact E]. exact Hd.
  Qed.
  Lemma kbuild U l m : (forall q i v, In (q, i, v) l -> K _ v) -> build U l = Done m -> kmap m.
  Proof.
    revert m. induction l as [|[[q i] v] l IH]; intros m H X; cbn in X; [injection X as <-; constructor|].
    destruct (buf_from P (vt_value P U) v) as [b| | |] eqn:E; cbn [obind] in X; try discriminate.
    destruct (build U l) as [r| | |]; cbn [obind] in X; try discriminate. injection X as <-. apply kmap_cons. split.
    - cbn. eapply kbuf_from; [|exact E]. eapply H. left; reflexivity.
    - apply IH; [|reflexivity]. intros q' i' v' Hin. eapply H. right; exact Hin.
  Qed.
  Lemma kmop m o x : retains K o -> kmap m -> mop_run bs m o = Done x -> kmap (x_map x).
  Proof.
    intros Ho Hm X. unfold mop_run in X. destruct (cop_run bs m (mop_core o)) as [y| | |] eqn:E; cbn [obind] in X; try discriminate.
    assert (x = y). { revert X. clear. destruct o; intros X; try (injection X as <-; reflexivity).
      - destruct (x_returned y) as [b|]; [destruct (buf_read_move P _ b)|]; cbn [obind] in X; try discriminate; injection X as <-; reflexivity.
      - destruct (slice bs m s) as [c| | |]; cbn [obind] in X; try discriminate. destruct (drop_all c); cbn [obind] in X; try discriminate. injection X as <-; reflexivity.
      - destruct (drop_all m); cbn [obind] in X; try discriminate. injection X as <-; reflexivity. }
    subst y. clear X. destruct o as [q s v|q s b|q s f|q s|q s o|q s f|s|s f| |U l]; cbn [mop_core retains] in *.
    - eapply kput; [exact Hm| |exact E]. intros b Hb. eapply kbuf_from; [exact Ho|exact Hb].
    - eapply kput; [exact Hm| |exact E]. intros b' Hb. eapply kbuf_from; [exact Ho|exact Hb].
    - cbn in E. unfold update in E. destruct (search bs m q s) as [i|i]; [|injection E as <-; exact Hm].
      destruct (vec_get m i) as [e| | |] eqn:G; cbn [obind] in E; try discriminate.
      destruct (buf_mut P _ (e_val e) f) as [b| | |] eqn:F; cbn [obind] in E; try discriminate.
      destruct (vec_set m i _) as [m'| | |] eqn:E'; cbn [obind] in E; try discriminate. injection E as <-.
      eapply kmap_set; [exact Hm| |exact E']. eapply kbuf_mut; [exact Ho|eapply kmap_get; [exact Hm|exact G]|exact F].
    - cbn in E. unfold take in E. destruct (search bs m q s) as [i|i]; [|injection E as <-; exact Hm].
      unfold vec_remove in E. destruct (nth_error m i) as [e|]; cbn [obind] in E; [|discriminate]. injection E as <-. cbn [x_map fst].
      apply kmap_app. split; [apply kmap_firstn, Hm|apply (kmap_skipn (S i)), Hm].
    - destruct Ho as [H1 H2]. eapply kupsert; [exact Hm| | |exact E].
      + intros b b' Hb F. eapply kbuf_mut; [exact H1|exact Hb|exact F].
      + intros b F. destruct (into_stat o) as [v| | |]; cbn [obind] in F; try discriminate. eapply kbuf_from; [apply (H2 v eq_refl)|exact F].
    - destruct Ho as [H1 H2]. eapply kupsert; [exact Hm| | |exact E].
      + intros b b' Hb F. eapply kbuf_mut; [exact H1|exact Hb|exact F].
      + intros b F. destruct (f (sv_default _)) as [v| | |]; cbn [obind] in F; try discriminate. eapply kbuf_from; [apply (H2 v eq_refl)|exact F].
    - cbn in E. unfold drain in E. destruct (cut bs m s) as [c| | |] eqn:Ec; cbn [obind] in E; try discriminate. injection E as <-. cbn [x_map fst].
      destruct (kmap_cut _ _ _ Hm Ec) as (A & B & C). apply kmap_app. auto.
    - cbn in E. unfold update_slice in E. destruct (cut bs m s) as [c| | |] eqn:Ec; cbn [obind] in E; try discriminate.
      destruct (update_each _ (snd (fst c))) as [mid| | |] eqn:Em; cbn [obind] in E; try discriminate. injection E as <-. cbn [x_map].
      destruct (kmap_cut _ _ _ Hm Ec) as (A & B & C). apply kmap_app. split; [exact A|]. apply kmap_app. split; [|exact C].
      eapply kmap_each; [|exact B|exact Em]. intros q b b' Hb F. eapply kbuf_mut; [|exact Hb|exact F]. intros v w. apply Ho.
    - cbn in E. injection E as <-. constructor.
    - cbn in E. destruct (build U l) as [r| | |] eqn:Eb; cbn [obind] in E; try discriminate. injection E as <-. cbn [x_map].
      apply kmap_sort, kmap_app. split; [exact Hm|]. eapply kbuild; [|exact Eb]. exact Ho.
  Qed.
  Lemma kmops l m m' : Forall (retains K) l -> kmap m -> mops_run bs m l = Done m' -> kmap m'.
  Proof.
    revert m. induction l as [|o l IH]; intros m Hl Hm X; cbn in X; [injection X as <-; exact Hm|].
    apply Forall_cons_iff in Hl as [Ho Hl]. destruct (mop_run bs m o) as [x| | |] eqn:E; cbn [obind] in X; try discriminate.
    eapply IH; [exact Hl| |exact X]. eapply kmop; [exact Ho|exact Hm|exact E].
  Qed.
End Maps.

Lemma C62_maps_proof :
  forall (P : Prog) (Q : QFlag) (N : StatNames P) (bs : list comparison -> bsres) named strict serial (L : forall t, leaf (val (VT P t))) (LQ : leaf (qcar Q)),
  bs_contract bs -> distinct_vtables P -> lawful_ord (q_cmp Q) ->
  forall (r : registry P) (l : list (mop P Q)) (m : map_t P Q), Forall sound_op l -> Forall (retains (fun t => back (L t))) l ->
  mops_run bs [] l = Done m ->
  (forall e, In e m -> serial (si_ty (e_stat e)) = true /\ name_back N r (e_stat e) /\ back LQ (any_of (e_qual e)) /\ back LQ (all_of (e_qual e))) ->
  let C := leaf_codec P Q named strict serial L LQ in
  exists d, ser_map N C m = ok d /\ de_map C (WReg r) d = ok m.
Proof.
  intros P Q N bs named strict serial L LQ B D OQ r l m HS HK R H C. apply C38_same_process_proof. intros e He.
  destruct (proj2 (mops_safe bs B D OQ l [] sorted_nil typed_nil HS) m R) as [_ T].
  assert (HM := kmops bs _ l [] m HK (Forall_nil _) R). unfold kmap in HM. rewrite Forall_forall in HM. specialize (HM e He).
  destruct (H e He) as (H1 & H2 & H3 & H4). split; [|exact H2].
  assert (F : forall x, back LQ x -> flag_back C x). { intros x Hx. exists (wr LQ x). split; [reflexivity|]. cbn. rewrite Hx. reflexivity. }
  split; [|split; apply F; assumption]. split; [exact H1|].
  unfold typed in T. rewrite Forall_forall in T. destruct (ok_buf_inv P _ _ (T e He)) as (v & Ev & Fi). rewrite Ev in HM. cbn in HM.
  split; [exact Fi|]. exists v, (wr (L _) v). split; [exact Ev|]. split; [reflexivity|]. cbn. rewrite HM. reflexivity.
Qed.

(** ** The statements *)
Lemma C62_struct_proof : forall strict names d ds, NoDup names -> (fields_of strict names d = Some ds <-> fields_are strict names d ds).
Proof. exact fields_of_iff. Qed.
Lemma C62_variant_proof : forall named names d i c, NoDup names -> (variant_of named names d = Some (i, c) <-> variant_is named names d i c).
Proof. exact variant_of_iff. Qed.
Lemma C62_number_proof : forall T d z, rd (leaf_num T) d = Some z <->
  exists x, d = DInt x /\ match i_flav T with FSaturating => z = sat (i_ty T) x | _ => z = x /\ small (i_ty T) x end.
Proof. exact num_iff. Qed.

Lemma C62_round_trip_proof : forall named strict,
  (forall T z, small (i_ty T) z -> back (leaf_num T) z) /\
  (forall t r, small_ratio t r -> back (leaf_ratio strict (leaf_int t)) r) /\
  (forall A M (LA : leaf A) (LM : leaf M) v, back LA (addend v) -> back LA (vmin v) -> back LA (vmax v) -> back LM (mult v) ->
     back (leaf_quad named strict LA LM) v /\ back (leaf_rounded named strict LA LM) v /\ back (leaf_percent named strict LA LM) v) /\
  (forall F (LF : leaf (fcar F)) v, back LF (t_min v) -> back LF (t_max v) -> back LF (t_mult v) -> back (leaf_mult named strict LF) v) /\
  (forall G (LG : leaf (gcar G)) v, back LG (f_not v) -> back LG (f_or v) -> back (leaf_flags named strict LG) v) /\
  (forall b, back leaf_exists b) /\
  (forall A (LA : leaf A) v, (forall a, v = Found a -> back LA a) -> back (leaf_once named LA) v) /\
  (forall A (LA : leaf A) v, back LA (p_value v) -> small I32 (p_priority v) -> back (leaf_prio named strict LA) v).
Proof.
  intros named strict. split; [|split; [|split; [|split; [|split; [|split; [|split]]]]]].
  - intros T z. apply back_num.
  - apply back_ratio.
  - intros. split; [|split]; [apply back_quad|apply back_rounded|apply back_percent]; assumption.
  - apply back_mult.
  - apply back_flags.
  - reflexivity.
  - intros A LA. apply back_once.
  - intros A LA. apply back_prio.
Qed.
Lemma C62_operations_proof : forall named S (La : leaf (addT S)) Lm Lb Lr Lz o, op_back La Lm Lb Lr Lz o -> back (leaf_op named La Lm Lb Lr Lz) o.
Proof. exact back_op. Qed.
Lemma C62_unsupported_proof : forall d, rd leaf_none d = None.
Proof. reflexivity. Qed.

Lemma C62_loaded_in_range_proof : forall named strict (T : intp),
  (forall d v, rd (leaf_quad named strict (leaf_num T) (leaf_num T)) d = Some v -> small_quad (i_ty T) (small (i_ty T)) v) /\
  (forall d v, rd (leaf_percent named strict (leaf_num T) (leaf_num T)) d = Some v -> small_quad (i_ty T) (small (i_ty T)) v) /\
  (forall d v, rd (leaf_rounded named strict (leaf_num T) (leaf_ratio strict (leaf_int (i_ty T)))) d = Some v -> small_quad (i_ty T) (small_ratio (i_ty T)) v) /\
  (forall d v, rd (leaf_percent named strict (leaf_num T) (leaf_ratio strict (leaf_int (i_ty T)))) d = Some v -> small_quad (i_ty T) (small_ratio (i_ty T)) v).
Proof.
  intros named strict T. split; [|split; [|split]]; intros d v H;
    [apply quad_iff in H|apply percent_iff in H|apply rounded_iff in H|apply percent_iff in H]; destruct H as (a & lo & hi & m & _ & H1 & H2 & H3 & H4);
    apply num_loaded in H1, H2, H3; split; [exact H1|split; [exact H2|split; [exact H3|]]| | | | | |]; try exact H1; try (split; [exact H2|split; [exact H3|]]);
    try (eapply num_loaded; exact H4); try (eapply ratio_loaded; exact H4).
Qed.

Lemma back_of_quad (named strict : bool) T {M} (LM : leaf M) (ok : M -> Prop) v : (forall m, ok m -> back LM m) -> small_quad (i_ty T) ok v ->
  back (leaf_quad named strict (leaf_num T) LM) v /\ back (leaf_rounded named strict (leaf_num T) LM) v /\ back (leaf_percent named strict (leaf_num T) LM) v.
Proof.
  intros Hm (H1 & H2 & H3 & H4). apply back_num in H1, H2, H3. apply Hm in H4.
  split; [|split]; [apply back_quad|apply back_rounded|apply back_percent]; assumption.
Qed.
Lemma C62_built_int_proof : forall oc T named strict (h : history (statInt oc T)) v,
  operands (op_of (S:=statInt oc T) (small (i_ty T)) (small (i_ty T)) (small (i_ty T)) (small (i_ty T))) h -> value_of h = Done v ->
  back (leaf_quad named strict (leaf_num T) (leaf_num T)) v.
Proof. intros. eapply back_of_quad; [|eapply built_int; eassumption]. intros m. apply back_num. Qed.
Lemma C62_built_fraction_proof : forall oc T R named strict (h : history (statIntFraction oc T R)) v,
  operands (op_of (S:=statIntFraction oc T R) (small (i_ty T)) (small_ratio (i_ty T)) (small (i_ty T)) (small (i_ty T))) h -> value_of h = Done v ->
  back (leaf_rounded named strict (leaf_num T) (leaf_ratio strict (leaf_int (i_ty T)))) v.
Proof. intros. eapply back_of_quad; [|eapply built_fraction; eassumption]. intros m. apply back_ratio. Qed.
Lemma C62_built_percent_additive_proof : forall oc T R scale named strict (h : history (statPctAdd oc T R scale)) v,
  operands (op_of (S:=statPctAdd oc T R scale) (small (i_ty T)) (small (i_ty T)) (small (i_ty T)) (small (i_ty T))) h -> value_of h = Done v ->
  back (leaf_percent named strict (leaf_num T) (leaf_num T)) v.
Proof. intros. eapply back_of_quad; [|eapply built_pctadd; eassumption]. intros m. apply back_num. Qed.
Lemma C62_built_percent_proof : forall oc T R scale named strict (h : history (statPct oc T R scale)) v,
  operands (op_of (S:=statPct oc T R scale) (small (i_ty T)) (small (i_ty T)) (small (i_ty T)) (small (i_ty T))) h -> value_of h = Done v ->
  back (leaf_percent named strict (leaf_num T) (leaf_ratio strict (leaf_int (i_ty T)))) v.
Proof. intros. eapply back_of_quad; [|eapply built_pct; eassumption]. intros m. apply back_ratio. Qed.
Lemma C62_built_float_mul_proof : forall prec emax (Hp : Prec_gt_0 prec) (He : Prec_lt_emax prec emax) oc t R named strict (LF : leaf (binary_float prec emax)),
  (forall x, back LF x) -> forall (h : history (statIntFloatMul prec emax Hp He oc t R)) v,
  operands (op_of (S:=statIntFloatMul prec emax Hp He oc t R) (small t) (fun _ => True) (small t) (small t)) h -> value_of h = Done v ->
  back (leaf_rounded named strict (leaf_int t) LF) v.
Proof.
  intros. apply (back_of_quad named strict {| i_ty := t; i_flav := FPrim |} LF (fun _ => True)); [intros m _; apply H|].
  cbn [i_ty]. exact (built_floatmul _ _ _ _ _ _ _ _ _ H0 H1).
Qed.
Lemma C62_built_flags_proof : forall t named strict (h : history (statFlags zflags)) v,
  operands (flag_op t) h -> value_of h = Done v -> back (leaf_flags (G:=zflags) named strict (leaf_int t)) v.
Proof. intros t named strict h v H1 H2. destruct (built_flags t h v H1 H2) as [A B]. apply back_flags; apply back_int; assumption. Qed.
Lemma C62_built_once_proof : forall A (LA : leaf A) named (h : history (statOnce A)) v,
  operands (once_op LA) h -> value_of h = Done v -> back (leaf_once named LA) v.
Proof. intros A LA named h v H1 H2. apply back_once. exact (built_once A LA h v H1 H2). Qed.
Lemma C62_built_prioritized_proof : forall A (LA : leaf A) dflt last named strict (h : history (prioritized A dflt last)) v,
  back LA dflt -> operands (prio_op LA dflt last) h -> value_of h = Done v -> back (leaf_prio named strict LA) v.
Proof. intros A LA dflt last named strict h v H0 H1 H2. destruct (built_prio A LA dflt last h v H0 H1 H2). apply back_prio; assumption. Qed.

Lemma C62_cache_empty_proof : forall P Q named strict,
  (forall (c : pcache P Q), rd (@leaf_cache named strict P Q) (wr (@leaf_cache named strict P Q) c) = Some (PCache [] false)) /\
  (forall d (c : pcache P Q), rd (@leaf_cache named strict P Q) d = Some c -> c = PCache [] false).
Proof.
  intros P Q named strict. split.
  - intros c. destruct named, strict; reflexivity.
  - intros d c. cbn [rd leaf_cache]. destruct (fields_of strict [] d); [|discriminate]. intros H; injection H as <-. reflexivity.
Qed.

Lemma C62_fraction_refuted_proof :
  exists d d' v w,
  rd frac_codec d = Some v /\ rd frac_codec d' = Some w /\ addend v = addend w /\ vmin v = vmin w /\ vmax v = vmax w /\
  numer (mult v) * denom (mult w) = numer (mult w) * denom (mult v) /\
  frac_eval true w = Done 3 /\ frac_eval false w = Done 3 /\
  frac_eval true v = Panics POverflow /\ frac_eval false v = Done 0.
Proof. exists (frac_doc 3 100 100), (frac_doc 3 1 1), (Quad 3 (-128) 127 (Frac 100 100)), (Quad 3 (-128) 127 (Frac 1 1)). vm_compute. repeat split. Qed.

Lemma C62_reads_four_fields_proof :
  forall named strict A M (LA : leaf A) (LM : leaf M) d v, rd (leaf_quad named strict LA LM) d = Some v <->
  exists a lo hi m, fields_are strict ["addend"; "min"; "max"; "mult"]%string d [a; lo; hi; m] /\
    rd LA a = Some (addend v) /\ rd LA lo = Some (vmin v) /\ rd LA hi = Some (vmax v) /\ rd LM m = Some (mult v).
Proof. exact (fun named strict A M LA LM d v => quad_iff named strict LA LM d v). Qed.
Lemma C62_reads_rounded_proof :
  forall named strict A M (LA : leaf A) (LM : leaf M) d v, rd (leaf_rounded named strict LA LM) d = Some v <->
  exists a lo hi m, fields_are strict ["addend"; "min"; "max"; "mult"; "rounding"]%string d [a; lo; hi; m; DNull] /\
    rd LA a = Some (addend v) /\ rd LA lo = Some (vmin v) /\ rd LA hi = Some (vmax v) /\ rd LM m = Some (mult v).
Proof. exact (fun named strict A M LA LM d v => rounded_iff named strict LA LM d v). Qed.
Lemma C62_reads_percent_proof :
  forall named strict A M (LA : leaf A) (LM : leaf M) d v, rd (leaf_percent named strict LA LM) d = Some v <->
  exists a lo hi m, fields_are strict ["addend"; "mult"; "min"; "max"; "rounding"]%string d [a; m; lo; hi; DNull] /\
    rd LA a = Some (addend v) /\ rd LA lo = Some (vmin v) /\ rd LA hi = Some (vmax v) /\ rd LM m = Some (mult v).
Proof. exact (fun named strict A M LA LM d v => percent_iff named strict LA LM d v). Qed.
Lemma C62_reads_prioritized_proof :
  forall named strict A (LA : leaf A) d v, rd (leaf_prio named strict LA) d = Some v <->
  exists x p, fields_are strict ["value"; "priority"]%string d [x; p] /\ rd LA x = Some (p_value v) /\ rd (leaf_int I32) p = Some (p_priority v).
Proof. exact (fun named strict A LA d v => prio_iff named strict LA d v). Qed.
Lemma C62_reads_once_proof :
  forall named A (LA : leaf A) d v, rd (leaf_once named LA) d = Some v <->
  match v with
  | NotFound => unit_is named once_variants d 0
  | Found a => exists x, variant_is named once_variants d 1 (Some x) /\ rd LA x = Some a
  | FoundMultiple => unit_is named once_variants d 2
  end.
Proof. exact (fun named A LA d v => once_iff named LA d v). Qed.
