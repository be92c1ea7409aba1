From Coq Require Import String Ascii ZArith List Bool Lia SpecFloat.
From Flocq Require Import Core BinarySingleNaN.
From Verif Require Import M_Outcome M_Ints M_Ratio M_Float M_Value M_Types M_Qualifier M_Search M_Stat M_StatMap M_HashMap M_Pair M_Defaults M_Querier M_Poison M_Registry M_Serde M_Bytes M_ValueSerde M_ValueBytes
  S_Search S_StatMap S_Demo S_Registry S_Serde S_Bytes S_Totals S_ValueSerde S_ValueBytes
  L_Outcome L_StatMap L_StatMap2 L_StatMap3 L_StatMap4 L_StatMap5 L_Serde L_SerdeProofs L_Bytes L_Bytes3 L_ValueSerde L_ValueSerde2 L_ValueSerde3 L_ValueBytes L_ValueBytes2.
Import ListNotations.
Local Open Scope Z_scope.

Lemma bback_small_quad t {M} (LM : bleaf M) (ok : M -> Prop) v : (forall m, ok m -> bback LM m) -> small_quad t ok v ->
  bback (bleaf_quad (bleaf_int t) LM) v /\ bback (bleaf_percent (bleaf_int t) LM) v.
Proof.
  intros Hm (H1 & H2 & H3 & H4). apply bback_int in H1, H2, H3. apply Hm in H4. split; [apply bback_quad|apply bback_percent]; assumption.
Qed.
Lemma C72_built_int_proof : forall oc T (h : history (statInt oc T)) v,
  operands (op_of (S:=statInt oc T) (small (i_ty T)) (small (i_ty T)) (small (i_ty T)) (small (i_ty T))) h -> value_of h = Done v ->
  bback (bleaf_quad (bleaf_int (i_ty T)) (bleaf_int (i_ty T))) v.
Proof. intros. eapply bback_small_quad; [|eapply built_int; eassumption]. intros m. apply bback_int. Qed.
Lemma C72_built_fraction_proof : forall oc T R (h : history (statIntFraction oc T R)) v,
  operands (op_of (S:=statIntFraction oc T R) (small (i_ty T)) (small_ratio (i_ty T)) (small (i_ty T)) (small (i_ty T))) h -> value_of h = Done v ->
  bback (bleaf_quad (bleaf_int (i_ty T)) (bleaf_ratio (bleaf_int (i_ty T)))) v.
Proof. intros. eapply bback_small_quad; [|eapply built_fraction; eassumption]. intros m. apply bback_small_ratio. Qed.
Lemma C72_built_percent_proof :
  (forall oc T R scale (h : history (statPctAdd oc T R scale)) v,
    operands (op_of (S:=statPctAdd oc T R scale) (small (i_ty T)) (small (i_ty T)) (small (i_ty T)) (small (i_ty T))) h -> value_of h = Done v ->
    bback (bleaf_percent (bleaf_int (i_ty T)) (bleaf_int (i_ty T))) v) /\
  (forall oc T R scale (h : history (statPct oc T R scale)) v,
    operands (op_of (S:=statPct oc T R scale) (small (i_ty T)) (small (i_ty T)) (small (i_ty T)) (small (i_ty T))) h -> value_of h = Done v ->
    bback (bleaf_percent (bleaf_int (i_ty T)) (bleaf_ratio (bleaf_int (i_ty T)))) v).
Proof.
  split; intros.
  - eapply bback_small_quad; [|eapply built_pctadd; eassumption]. intros m. apply bback_int.
  - eapply bback_small_quad; [|eapply built_pct; eassumption]. intros m. apply bback_small_ratio.
Qed.
Lemma C72_built_float_mul_proof : forall prec emax (Hp : Prec_gt_0 prec) (He : Prec_lt_emax prec emax) oc t R (LF : bleaf (binary_float prec emax)),
  (forall x, bback LF x) -> forall (h : history (statIntFloatMul prec emax Hp He oc t R)) v,
  operands (op_of (S:=statIntFloatMul prec emax Hp He oc t R) (small t) (fun _ => True) (small t) (small t)) h -> value_of h = Done v ->
  bback (bleaf_quad (bleaf_int t) LF) v.
Proof.
  intros. apply (bback_small_quad t LF (fun _ => True)); [intros m _; apply H|]. exact (built_floatmul _ _ _ _ _ _ _ _ _ H0 H1).
Qed.
Lemma C72_built_flags_proof : forall t (h : history (statFlags zflags)) v,
  operands (flag_op t) h -> value_of h = Done v -> bback (bleaf_flags (G:=zflags) (bleaf_int t)) v.
Proof. intros t h v H1 H2. destruct (built_flags t h v H1 H2) as [A B]. apply bback_flags; apply bback_int; assumption. Qed.
Lemma C72_built_once_proof : forall A (LA : bleaf A) (h : history (statOnce A)) v,
  operands (once_bop LA) h -> value_of h = Done v -> bback (bleaf_once LA) v.
Proof.
  intros A LA h v H1 H2. apply bback_once. revert H1 H2. apply (kept (S:=statOnce A) _ (fun v => forall a, v = Found a -> bback LA a)).
  - discriminate.
  - intros b Hb a E; injection E as <-. exact Hb.
  - intros [x|x|x|x|x|x|x] u w Ho Hu; try (destruct x; fail); intros H; injection H as <-.
    + destruct u as [|z|]; cbn; intros a E; try discriminate. injection E as <-. exact Ho.
    + exact Hu.
    + intros a E; injection E as <-. exact Ho.
  - intros u v' w Hu Hv H; injection H as <-. destruct u, v'; cbn; auto; discriminate.
Qed.
Lemma C72_built_prioritized_proof : forall A (LA : bleaf A) dflt last (h : history (prioritized A dflt last)) v,
  bback LA dflt -> operands (prio_bop LA dflt last) h -> value_of h = Done v -> bback (bleaf_prio LA) v.
Proof.
  intros A LA d last h v H0 H1 H2. assert (X : bback LA (p_value v) /\ small I32 (p_priority v)); [|destruct X; apply bback_prio; assumption]. revert H1 H2.
  apply (kept (S:=prioritized A d last) _ (fun v => bback LA (p_value v) /\ small I32 (p_priority v))).
  - split; [exact H0|reflexivity].
  - intros b Hb. exact Hb.
  - intros [x|x|x|x|x|x|x] u w Ho Hu; try (destruct x; fail); intros H; injection H as <-; try exact Hu. exact Ho.
  - intros u v' w [A1 A2] [B1 B2] H; injection H as <-. destruct last; [destruct (p_priority u <=? p_priority v')|destruct (p_priority u <? p_priority v')]; cbn; auto.
Qed.

Lemma C72_maps_proof :
  forall (P : Prog) (Q : QFlag) (N : StatNames P) (bs : list comparison -> bsres) serial utf8 (L : forall t, bleaf (val (VT P t))) (LQ : bleaf (qcar Q)),
  bs_contract bs -> distinct_vtables P -> lawful_ord (q_cmp Q) ->
  forall (r : registry P) (l : list (mop P Q)) (m : map_t P Q), Forall sound_op l -> Forall (retains (fun t => bback (L t))) l ->
  mops_run bs [] l = Done m -> Z.of_nat (List.length m) < 2 ^ 64 ->
  let C := bleaf_codec P Q serial utf8 L LQ in
  (forall e, In e m -> serial (si_ty (e_stat e)) = true /\ bname_back N C r (e_stat e) /\ bback LQ (any_of (e_qual e)) /\ bback LQ (all_of (e_qual e))) ->
  exists d, put_map N C m = ok d /\ spells (take_map C (WReg r)) d m.
Proof.
  intros P Q N bs serial utf8 L LQ B D OQ r l m HS HK R Len C H.
  destruct (C70_round_trip_proof P Q N C r m) as (d & H1 & H2 & H3); [|exact Len|exists d; split; [exact H1|split; assumption]].
  intros e He. destruct (proj2 (mops_safe bs B D OQ l [] sorted_nil typed_nil HS) m R) as [_ T].
  assert (HM := kmops bs _ l [] m HK (Forall_nil _) R). unfold kmap in HM. rewrite Forall_forall in HM. specialize (HM e He).
  destruct (H e He) as (G1 & G2 & G3 & G4).
  assert (F : forall x, bback LQ x -> bflag_back C x). { intros x Hx. exists (bput LQ x). split; [reflexivity|exact Hx]. }
  split; [|split; [apply F; exact G3|split; [apply F; exact G4|exact G2]]]. split; [exact G1|].
  unfold typed in T. rewrite Forall_forall in T. destruct (ok_buf_inv P _ _ (T e He)) as (v & Ev & Fi). rewrite Ev in HM. cbn in HM.
  split; [exact Fi|]. exists v. split; [exact Ev|]. exists (bput (L _) v). split; [reflexivity|]. exact HM.
Qed.
Lemma C72_nothing_written_proof :
  forall (P : Prog) (Q : QFlag),
  (forall (c : pcache P Q), bput bleaf_cache c = []) /\
  (forall bs (c : pcache P Q) rest, btake bleaf_cache bs = ok (c, rest) <-> c = PCache [] false /\ rest = bs) /\
  bput bleaf_entity tt = [] /\ (forall bs rest, btake bleaf_entity bs = ok (tt, rest) <-> rest = bs).
Proof.
  intros P Q. split; [reflexivity|]. split.
  - intros bs c rest. split; [intros H; injection H as <- <-; auto|intros [-> ->]; reflexivity].
  - split; [reflexivity|]. intros bs rest. split; [intros H; injection H as <-; reflexivity|intros ->; reflexivity].
Qed.
Lemma C72_fraction_refuted_proof :
  exists bs bs' v w,
  btake bfrac bs = ok (v, []) /\ btake bfrac bs' = ok (w, []) /\ addend v = addend w /\ vmin v = vmin w /\ vmax v = vmax w /\
  numer (mult v) * denom (mult w) = numer (mult w) * denom (mult v) /\
  frac_eval true w = Done 3 /\ frac_eval false w = Done 3 /\
  frac_eval true v = Panics POverflow /\ frac_eval false v = Done 0.
Proof.
  exists [3; 128; 127; 100; 100], [3; 128; 127; 1; 1], (Quad 3 (-128) 127 (Frac 100 100)), (Quad 3 (-128) 127 (Frac 1 1)).
  split; [vm_compute; reflexivity|]. split; [vm_compute; reflexivity|]. split; [vm_compute; reflexivity|]. split; [vm_compute; reflexivity|].
  split; [vm_compute; reflexivity|]. split; [vm_compute; reflexivity|]. split; [vm_compute; reflexivity|]. split; [vm_compute; reflexivity|]. split; vm_compute; reflexivity.
Qed.
(** The layouts of [StatIntPercent] and of the others differ only in order, and a map does not say
    which was used: bytes written as one are read as the other. *)
Lemma C72_typeless_refuted_proof :
  exists v w : quad Z Z, bback (bleaf_quad (bleaf_int I8) (bleaf_int I8)) v /\ bback (bleaf_percent (bleaf_int I8) (bleaf_int I8)) w /\
  bput (bleaf_quad (bleaf_int I8) (bleaf_int I8)) v = bput (bleaf_percent (bleaf_int I8) (bleaf_int I8)) w /\ v <> w.
Proof.
  exists (Quad 1 2 3 4), (Quad 1 3 4 2). split; [apply bback_quad; apply bback_int; reflexivity|].
  split; [apply bback_percent; apply bback_int; reflexivity|]. split; [reflexivity|discriminate].
Qed.
