(** Which documents of entries the derived implementations accept; reading them never panics. *)
From Coq Require Import String ZArith Lia Bool List.
From Verif Require Import M_Outcome M_Ints M_Ratio M_Float M_Value M_Types M_Qualifier M_Search M_Stat M_StatMap M_HashMap M_Pair M_Registry M_Defaults M_Querier M_Poison M_Serde M_ValueSerde
  S_Search S_StatMap S_Registry S_Serde S_Totals S_ValueSerde
  L_Outcome L_Serde L_SerdeProofs.
Import ListNotations.
Local Open Scope Z_scope.

Lemma some_iff {A} (o : option A) v : (match o with Some x => ok x | None => err end) = ok v <-> o = Some v.
Proof. destruct o; split; intros H; try discriminate; inversion H; reflexivity. Qed.

Lemma C62_entry_iff_proof :
  forall (P : Prog) (Q : QFlag) named strict serial (L : forall t, leaf (val (VT P t))) (LQ : leaf (qcar Q)) (r : registry P) d e,
  de_entry (leaf_codec P Q named strict serial L LQ) (WReg r) d = ok e <->
  exists dq n dv rest d1 d2 v, d = DSeq (dq :: DStr n :: dv :: rest) /\ (strict = true -> rest = []) /\
    rd LQ d1 = Some (any_of (e_qual e)) /\ rd LQ d2 = Some (all_of (e_qual e)) /\
    ((exists l, dq = DMap l /\ S_Serde.under "any_of"%string l = [d1] /\ S_Serde.under "all_of"%string l = [d2]) \/
     (exists l, dq = DSeq (d1 :: d2 :: l) /\ (strict = true -> l = []))) /\
    reg_get r n = Some (e_stat e) /\ serial (si_ty (e_stat e)) = true /\ fits (e_stat e) /\
    rd (L (vt_value P (si_ty (e_stat e)))) dv = Some v /\ e_val e = Buf (vt_value P (si_ty (e_stat e))) v.
Proof.
  intros P Q named strict serial L LQ r d e. rewrite C39_entry_iff_proof. unfold entry_doc, qual_doc. cbn [leaf_codec c_strict c_serial c_qde c_vde]. split.
  - intros (dq & n & dv & rest & r' & v & E & St & (d1 & d2 & Q1 & Q2 & Qd) & W & G & Se & Fi & V & B).
    injection W as <-. apply some_iff in Q1. apply some_iff in Q2. apply some_iff in V.
    exists dq, n, dv, rest, d1, d2, v. repeat (split; [assumption|]). exact B.
  - intros (dq & n & dv & rest & d1 & d2 & v & E & St & Q1 & Q2 & Qd & G & Se & Fi & V & B).
    exists dq, n, dv, rest, r, v. split; [exact E|]. split; [exact St|]. split.
    { exists d1, d2. split; [apply some_iff; exact Q1|]. split; [apply some_iff; exact Q2|exact Qd]. }
    repeat (split; [assumption || reflexivity|]). split; [apply some_iff; exact V|exact B].
Qed.

(** ** No panic *)
Definition calm {A} (o : res A) : Prop := exists x, o = Done x.
Lemma calm_bind {A B} (m : res A) (f : A -> res B) : calm m -> (forall a, calm (f a)) -> calm (rbind m f).
Proof. intros [[a|] ->] H; cbn; [apply H|eexists; reflexivity]. Qed.
Lemma calm_fields1 {A} n (f : doc -> res A) : (forall d, calm (f d)) -> forall l o, calm (de_fields1 n f o l).
Proof.
  intros Hf. induction l as [|[k d] l IH]; intros o; cbn.
  - destruct o; eexists; reflexivity.
  - destruct (String.eqb k n); [|apply IH]. destruct o; [eexists; reflexivity|]. apply calm_bind; [apply Hf|]. intros a. apply IH.
Qed.
Lemma calm_fields2 {A} n1 n2 (f : doc -> res A) : (forall d, calm (f d)) -> forall l o1 o2, calm (de_fields2 n1 n2 f o1 o2 l).
Proof.
  intros Hf. induction l as [|[k d] l IH]; intros o1 o2; cbn.
  - destruct o1, o2; eexists; reflexivity.
  - destruct (String.eqb k n1); [|destruct (String.eqb k n2); [|apply IH]].
    + destruct o1; [eexists; reflexivity|]. apply calm_bind; [apply Hf|]. intros a. apply IH.
    + destruct o2; [eexists; reflexivity|]. apply calm_bind; [apply Hf|]. intros a. apply IH.
Qed.

Lemma C62_returns_proof :
  forall (P : Prog) (Q : QFlag) named strict serial (L : forall t, leaf (val (VT P t))) (LQ : leaf (qcar Q)) (r : registry P),
  (forall n s, reg_get r n = Some s -> serial (si_ty s) = true /\ fits s) ->
  forall d, exists o, de_map (leaf_codec P Q named strict serial L LQ) (WReg r) d = Done o.
Proof.
  intros P Q named strict serial L LQ r HR. set (C := leaf_codec P Q named strict serial L LQ).
  assert (K : forall A (x : A) b, calm (if b : bool then err else ok x)) by (intros A x []; eexists; reflexivity).
  assert (CQ : forall d, calm (c_qde C d)) by (intros d; cbn; destruct (rd LQ d); eexists; reflexivity).
  assert (Q1 : forall d, calm (de_qual C d)).
  { intros [|b|z|s|l|l]; cbn; try (eexists; reflexivity).
    - destruct l as [|d1 [|d2 l]]; [eexists; reflexivity| |].
      + apply calm_bind; [apply CQ|]. intros. eexists; reflexivity.
      + apply calm_bind; [apply CQ|]. intros. apply calm_bind; [apply CQ|]. intros. apply K.
    - apply calm_bind; [apply calm_fields2, CQ|]. intros. eexists; reflexivity. }
  assert (E1 : forall d, calm (de_entry C (WReg r) d)).
  { intros [|b|z|s|l|l]; cbn [de_entry]; try (eexists; reflexivity).
    apply calm_bind; [|intros; apply K].
    destruct l as [|d1 l1]; [eexists; reflexivity|]. cbn [de_triple]. apply calm_bind; [apply Q1|]. intros q.
    destruct l1 as [|d2 l2]; [eexists; reflexivity|].
    destruct d2 as [|b|z|n|l|l]; try (eexists; reflexivity). cbn [de_stat].
    destruct (reg_get r n) as [s|] eqn:G; [|eexists; reflexivity]. cbn [rbind ok obind].
    destruct l2 as [|d3 l3]; [eexists; reflexivity|].
    destruct (HR n s G) as [S1 F]. unfold fits in F.
    apply calm_bind; [|intros; eexists; reflexivity].
    unfold de_value. change (c_serial C (si_ty s)) with (serial (si_ty s)). rewrite S1, F. cbn [obind].
    apply calm_bind; [cbn; destruct (rd (L (vt_value P (si_ty s))) d3); eexists; reflexivity|].
    intros v. unfold buf_from. rewrite F. eexists; reflexivity. }
  assert (V1 : forall d, calm (de_vec C (WReg r) d)).
  { intros [|b|z|s|l|l]; try (eexists; reflexivity). cbn. induction l as [|d l IH]; cbn; [eexists; reflexivity|].
    apply calm_bind; [apply E1|]. intros e. apply calm_bind; [exact IH|]. intros; eexists; reflexivity. }
  intros [|b|z|s|l|l]; try (eexists; reflexivity).
  - cbn. destruct l as [|d1 l]; [eexists; reflexivity|]. apply calm_bind; [apply V1|]. intros. apply K.
  - cbn. apply calm_fields1, V1.
Qed.
