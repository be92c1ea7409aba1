From Coq Require Import ZArith List Bool Lia.
From Verif Require Import M_Outcome M_Ints M_Stat M_Layout S_Layout.
Import ListNotations.
Local Open Scope Z_scope.

Lemma C25_validate_exact_proof :
  forall l : layout, validate (l_size l) (l_align l) = Done tt <-> storable l.
Proof.
  intros [s a]. unfold validate, storable. cbn [l_size l_align].
  destruct (Z.eqb_spec a 1), (Z.eqb_spec a 2), (Z.eqb_spec a 4), (Z.eqb_spec a 8), (Z.ltb_spec 24 s);
    cbn [orb]; split; intros H'; try discriminate; try reflexivity; try lia; exfalso; lia.
Qed.

Lemma C25_others_panic_before_access_proof :
  forall (A : Type) (r : repr A) (v : A) (f : A -> A) (p : Z) (b : list byte),
  ~ storable (r_lay r) ->
  exists why, raw_from r p v = Panics why /\ raw_read r p b = Panics why /\ raw_mut r p b f = Panics why.
Proof.
  intros A r v f p b H. unfold raw_from, raw_read, raw_mut, check.
  destruct (validate (l_size (r_lay r)) (l_align (r_lay r))) as [[]|w| |] eqn:E.
  - apply C25_validate_exact_proof in E. contradiction.
  - exists w. repeat split.
  - exfalso. revert E. unfold validate. destruct (_ || _); [destruct (_ <? _)|]; discriminate.
  - exfalso. revert E. unfold validate. destruct (_ || _); [destruct (_ <? _)|]; discriminate.
Qed.

Lemma C25_buffer_is_a_variable_proof :
  forall (A : Type) (r : repr A) (v : A) (local p : Z) (l : list (bstep A)),
  lawful_repr r -> storable (r_lay r) ->
  local mod l_align (r_lay r) = 0 -> p mod 8 = 0 -> aligned_moves l ->
  exists b p' b',
    raw_from r local v = Done b /\
    raw_run r p b l = Done (p', b', snd (var_run v l)) /\
    raw_read r p' b' = Done (fst (var_run v l)).
Proof.
  intros A r v local p l (Hs & Hlen & Hdec) Hst Hloc Hp Hm.
  assert (Hck : check r = Done tt) by (apply C25_validate_exact_proof; exact Hst).
  assert (Hal : forall q, q mod 8 = 0 -> q mod l_align (r_lay r) = 0).
  { intros q Hq. destruct Hst as [_ [-> | [-> | [-> | ->]]]]; [apply Z.mod_1_r| | |exact Hq].
    - rewrite (Z.div_mod q 8) by lia. rewrite Hq. replace (8 * (q / 8) + 0) with ((4 * (q / 8)) * 2) by lia. apply Z.mod_mul. lia.
    - rewrite (Z.div_mod q 8) by lia. rewrite Hq. replace (8 * (q / 8) + 0) with ((2 * (q / 8)) * 4) by lia. apply Z.mod_mul. lia. }
  assert (Hsz : l_size (r_lay r) <= 24) by apply Hst.
  assert (Hst1 : forall q mem w, length mem = 24%nat -> q mod l_align (r_lay r) = 0 ->
    store r q mem w = Done (r_enc r w ++ skipn (length (r_enc r w)) mem)).
  { intros q mem w Hlm Hq. unfold store, access_ok. rewrite Hlm, Hq. cbn [Z.eqb andb].
    destruct (Z.leb_spec (l_size (r_lay r)) (Z.of_nat 24)); [reflexivity|lia]. }
  assert (Hstlen : forall mem w, length mem = 24%nat -> length (r_enc r w ++ skipn (length (r_enc r w)) mem) = 24%nat).
  { intros mem w Hlm. rewrite app_length, skipn_length. specialize (Hlen w). lia. }
  assert (Hld : forall q mem w, length mem = 24%nat -> q mod 8 = 0 ->
    load r q (r_enc r w ++ skipn (length (r_enc r w)) mem) = Done w).
  { intros q mem w Hlm Hq. unfold load, access_ok. rewrite (Hstlen mem w Hlm), (Hal q Hq). cbn [Z.eqb andb].
    destruct (Z.leb_spec (l_size (r_lay r)) (Z.of_nat 24)); [|lia].
    rewrite <- (Hlen w), Nat2Z.id, firstn_app, Nat.sub_diag, firstn_all, firstn_O, app_nil_r, Hdec. reflexivity. }
  unfold raw_from. rewrite Hck. cbn [obind]. rewrite Hst1 by (auto using repeat_length).
  assert (G : forall l p mem v, length mem = 24%nat -> p mod 8 = 0 -> aligned_moves l ->
    exists p' b', raw_run r p (r_enc r v ++ skipn (length (r_enc r v)) mem) l = Done (p', b', snd (var_run v l)) /\
      raw_read r p' b' = Done (fst (var_run v l))).
  { clear l p v Hp Hm. induction l as [|s l IH]; intros p mem v Hlm Hp Hm.
    - cbn. eexists _, _. split; [reflexivity|]. unfold raw_read. rewrite Hck. cbn [obind]. apply Hld; assumption.
    - inversion Hm; subst. destruct s as [|f|p']; cbn [raw_run var_run].
      + unfold raw_read at 1. rewrite Hck. cbn [obind]. rewrite Hld by assumption. cbn [obind].
        destruct (IH p mem v Hlm Hp H2) as (p' & b' & E1 & E2). rewrite E1. cbn [obind fst snd].
        destruct (var_run v l). cbn [fst snd] in *. eexists _, _. split; [reflexivity|exact E2].
      + unfold raw_mut. rewrite Hck. cbn [obind]. rewrite Hld by assumption. cbn [obind].
        rewrite Hst1 by (auto using Hstlen). cbn [obind].
        apply IH; auto.
      + apply IH; assumption. }
  destruct (G l p (repeat None 24) v (repeat_length _ _) Hp Hm) as (p' & b' & E1 & E2).
  eexists _, p', b'. split; [reflexivity|]. split; assumption.
Qed.

Lemma C25_from_undefined_exactly_proof :
  forall (A : Type) (r : repr A) (v : A) (local : Z),
  raw_from r local v = UB <-> storable (r_lay r) /\ local mod l_align (r_lay r) <> 0.
Proof.
  intros A r v local. unfold raw_from. rewrite <- C25_validate_exact_proof. fold (check r).
  assert (Hnu : check r <> UB) by (unfold check, validate; destruct (_ || _); [destruct (_ <? _)|]; discriminate).
  destruct (check r) as [[]|w| |] eqn:E; cbn [obind]; [|split; [discriminate|intros [H _]; discriminate]|congruence|split; [discriminate|intros [H _]; discriminate]].
  unfold store, access_ok. rewrite repeat_length.
  apply C25_validate_exact_proof in E as [Hs _].
  destruct (Z.eqb_spec (local mod l_align (r_lay r)) 0); cbn [andb].
  - destruct (Z.leb_spec (l_size (r_lay r)) (Z.of_nat 24)); [|lia]. split; [discriminate|intros [_ H']; contradiction].
  - split; [split; [reflexivity|assumption]|reflexivity].
Qed.

Lemma C25_from_in_bounds_and_aligned_refuted_proof :
  exists (A : Type) (r : repr A) (v : A) (local : Z),
  lawful_repr r /\ storable (r_lay r) /\ raw_from r local v = UB.
Proof.
  exists Z, (Repr Z (Lay 8 8) (fun z => repeat (Some z) 8) (fun b => match hd None b with Some z => z | None => 0 end)), 5, 1.
  split; [|split; [unfold storable; cbn; lia|reflexivity]].
  unfold lawful_repr. cbn. split; [lia|]. split; reflexivity.
Qed.

Lemma C26_StatInt_proof :
  forall a128 t, a128 = 8 \/ a128 = 16 ->
  (storable (lay_StatInt (lay_int a128 t)) <-> bits t <= 32) /\
  (storable (lay_StatIntPercentAdditive (lay_int a128 t)) <-> bits t <= 32) /\
  (storable (lay_StatIntPercent (lay_int a128 t) (lay_int a128 t)) <-> bits t <= 32) /\
  (storable (lay_StatIntFraction (lay_int a128 t) (lay_int a128 t)) <-> bits t <= 32) /\
  (storable (lay_StatIntFloatMul (lay_int a128 t) lay_f32) <-> bits t <= 32) /\
  (storable (lay_StatIntFloatMul (lay_int a128 t) lay_f64) <-> bits t <= 32) /\
  (storable (lay_StatFlags (lay_int a128 t)) <-> bits t <= 64).
Proof. intros a128 t [-> | ->]; destruct t; vm_compute; intuition congruence. Qed.

Lemma C26_StatFloat_proof :
  forall a128 t, a128 = 8 \/ a128 = 16 ->
  storable (lay_StatFloat lay_f32) /\ ~ storable (lay_StatFloat lay_f64) /\
  storable (lay_StatMult lay_f32) /\ storable (lay_StatMult lay_f64) /\
  (storable (lay_StatFloat (lay_ratio (lay_int a128 t))) <-> bits t <= 16) /\
  (storable (lay_StatMult (lay_ratio (lay_int a128 t))) <-> bits t <= 32).
Proof. intros a128 t [-> | ->]; destruct t; vm_compute; intuition congruence. Qed.

Lemma C26_containers_proof :
  forall l : layout, 0 <= l_size l ->
  l_align l = 1 \/ l_align l = 2 \/ l_align l = 4 \/ l_align l = 8 ->
  storable lay_StatExists /\
  (storable (lay_StatOnce l) <-> l_size l <= if l_align l =? 8 then 16 else 20) /\
  (storable (lay_Prioritized l) <-> l_size l <= 20).
Proof.
  intros [s a] Hs Ha. cbn [l_size l_align] in *.
  split; [vm_compute; intuition congruence|].
  unfold storable, lay_StatOnce, c_enum, lay_Prioritized, c_struct, c_end, c_align, round_up.
  cbn [l_size l_align fold_right].
  destruct Ha as [-> | [-> | [-> | ->]]]; cbn [Z.max Z.compare Pos.compare Pos.compare_cont Z.eqb Pos.eqb].
  all: split; split; intros H'; try split; try (right; right; left; reflexivity); try (right; right; right; reflexivity).
  all: try (destruct H' as [H' _]).
  all: Z.div_mod_to_equations; lia.
Qed.

Lemma C26_every_parameter_refuted_proof :
  exists t, ~ storable (lay_StatInt (lay_int 16 t)) /\ ~ storable (lay_StatIntPercent (lay_int 16 t) (lay_int 16 t)) /\
  ~ storable (lay_StatFloat lay_f64).
Proof. exists I64. vm_compute. intuition congruence. Qed.

Lemma round_up_first n a : 0 < a -> n <= round_up n a < n + a /\ (a | round_up n a).
Proof.
  intros Ha. unfold round_up. pose proof (Z.div_mod (n + a - 1) a ltac:(lia)).
  pose proof (Z.mod_pos_bound (n + a - 1) a Ha). split; [nia|]. exists ((n + a - 1) / a). reflexivity.
Qed.
Lemma c_end_packed fs off : Forall sane fs -> packed off fs (c_end off fs).
Proof.
  revert off. induction fs as [|f fs IH]; intros off Hf; cbn [c_end]; [constructor|].
  inversion Hf as [|? ? [_ Ha] Hfs]; subst.
  destruct (round_up_first off (l_align f) Ha) as [Hr Hm].
  econstructor; [exact Hr|exact Hm|]. apply IH, Hfs.
Qed.
Lemma c_align_max forced fs :
  forced <= c_align forced fs /\ Forall (fun f => l_align f <= c_align forced fs) fs /\
  (c_align forced fs = forced \/ exists f, In f fs /\ l_align f = c_align forced fs).
Proof.
  induction fs as [|f fs IH]; cbn [c_align fold_right]; [split; [lia|split; [constructor|tauto]]|].
  change (fold_right _ forced fs) with (c_align forced fs). destruct IH as (H1 & H2 & H3).
  split; [lia|]. split.
  - constructor; [lia|]. eapply Forall_impl; [|exact H2]. cbn. lia.
  - destruct (Z.max_spec (l_align f) (c_align forced fs)) as [[Hl ->]|[Hl ->]].
    + destruct H3 as [H3|(g & Hg & Eg)]; [tauto|]. right. exists g. split; [right|]; auto.
    + right. exists f. split; [left; reflexivity|reflexivity].
Qed.
Lemma C26_struct_proof :
  forall forced fs, 0 < forced -> Forall sane fs -> struct_of forced fs (c_struct forced fs).
Proof.
  intros forced fs Hf Hs. destruct (c_align_max forced fs) as (H1 & H2 & H3).
  unfold struct_of, c_struct. cbn [l_size l_align]. split; [exact H1|split; [exact H2|split; [exact H3|]]].
  destruct (round_up_first (c_end 0 fs) (c_align forced fs) ltac:(lia)) as [Hr Hm].
  exists (c_end 0 fs). split; [apply c_end_packed, Hs|]. split; assumption.
Qed.
Lemma packed_fun off fs e e' : packed off fs e -> packed off fs e' -> e = e'.
Proof.
  intros H. revert e'. induction H as [off|off f fs a e Ha Hd Hp IH]; intros e' H'; inversion H' as [|? ? ? b ? Hb Hdb Hpb]; subst; [reflexivity|].
  assert (b = a).
  { destruct Hd as [x ->], Hdb as [y ->]. assert (x = y) by (clear - Ha Hb; nia). subst; reflexivity. }
  subst. apply IH. assumption.
Qed.
Lemma C26_struct_unique_proof :
  forall forced fs l l', struct_of forced fs l -> struct_of forced fs l' -> l = l'.
Proof.
  intros forced fs [s a] [s' a'] (H1 & H2 & H3 & e & P1 & R1 & M1) (G1 & G2 & G3 & e' & P2 & R2 & M2).
  cbn [l_size l_align] in *.
  assert (a <= a') by (destruct H3 as [->|(f & Hf & <-)]; [lia|exact (proj1 (Forall_forall _ _) G2 f Hf)]).
  assert (a' <= a) by (destruct G3 as [->|(f & Hf & <-)]; [lia|exact (proj1 (Forall_forall _ _) H2 f Hf)]).
  assert (a' = a) by lia. subst a'. pose proof (packed_fun _ _ _ _ P1 P2) as <-.
  destruct M1 as [x ->], M2 as [y ->]. assert (x = y) by (clear - R1 R2; nia). subst. reflexivity.
Qed.
