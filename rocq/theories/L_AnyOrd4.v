(** What is read under a lawful order, and by stats with one table. *)
From Coq Require Import ZArith List Bool.
From Verif Require Import M_Outcome M_Value M_Types M_Qualifier M_Search M_Stat M_StatMap M_Pair M_AnyOrd M_VTable
  S_Search S_StatMap S_Demo S_AnyOrd S_VTable L_StatMap3 L_AnyOrd L_AnyOrd2 L_AnyOrd3 L_VTable L_VTable2.
Import ListNotations.

Lemma C66_lawful_get_same_proof :
  forall (P : Prog) (Q : QFlag) (sr : searcher), search_contract sr -> distinct_vtables P -> lawful_ord (q_cmp Q) ->
  forall (m : map_t P Q) q s,
  any_get sr steady m q s = m_get (pure_search sr) m q s /\
  any_get_evaled sr steady m q s = m_get_evaled (pure_search sr) m q s.
Proof.
  intros P Q sr C D OQ m q s.
  assert (E : any_find sr steady m q s = find (pure_search sr) m q s).
  { unfold any_find. rewrite (steady_search sr C). reflexivity. }
  unfold any_get_evaled, any_get, m_get, m_get_evaled. rewrite E.
  destruct (find (pure_search sr) m q s) as [[b|]| | |]; cbn [obind]; split; try reflexivity.
  destruct (buf_ref P (vt_value P (si_ty s)) b); reflexivity.
Qed.
Lemma C66_get_evaled_proof :
  forall (P : Prog) (Q : QFlag) (sr : searcher) (c : flag_order Q) (m : map_t P Q) q s,
  (forall v, any_get sr c m q s = Done (Some v) -> any_get_evaled sr c m q s = let! r := sv_eval (VT P (vt_value P (si_ty s))) v in Done (Some r)) /\
  (any_get sr c m q s = Done None -> any_get_evaled sr c m q s = Done None) /\
  (forall p, any_get sr c m q s = Panics p -> any_get_evaled sr c m q s = Panics p).
Proof.
  intros P Q sr c m q s. unfold any_get_evaled. repeat split; intros *; intros ->; reflexivity.
Qed.
Lemma C67_observers_same_proof : forall (c : crate) (Q : QFlag) (sr : searcher) (m : map_t (prog_of c) Q) (s : inst (prog_of c)),
  (forall o q, v_get sr o m q (raise_inst s) = any_get sr o m q s) /\
  v_iter sr m (raise_inst s) = m_iter (pure_search sr) m s /\
  (forall x, v_query sr m x (raise_inst s) = m_query (pure_search sr) m x s) /\
  (forall v, v_new (c:=c) (raise_inst s) v = pair_new (prog_of c) s v) /\
  (forall (D : StatTypes (prog_of c)) (p : pair (prog_of c)), validate_stat D (si_ty s) = Done tt -> v_into p (raise_inst s) = pair_into_result D p (si_ty s)).
Proof.
  intros c Q sr m [t i]. split; [reflexivity|]. split; [reflexivity|]. split; [reflexivity|]. split; [reflexivity|].
  intros D p F. unfold v_into, pair_into_result. rewrite F. reflexivity.
Qed.
Lemma C67_pairs_return_proof : forall c : crate, own_tables c -> same_values c ->
  forall s v (p : pair (prog_of c)), comes (c:=c) s -> v_new s v = Done p ->
  v_into p s = Done (Some v) /\
  forall s', comes (c:=c) s' ->
  (cr_addr c (vs_table s) = cr_addr c (vs_table s') -> exists w, v_into p s' = Done (Some w)) /\
  (cr_addr c (vs_table s) <> cr_addr c (vs_table s') -> v_into p s' = Done None).
Proof.
  intros c O SV s v p H E. unfold v_new, buf_from in E.
  destruct (validate_ty (prog_of c) (vval c s)) as [[]| | |] eqn:F; cbn [obind] in E; try discriminate. injection E as <-.
  split; [|intros s' H'; split].
  - unfold v_into. cbn [p_stat p_buf vinst si_ty]. rewrite Z.eqb_refl. unfold buf_into, buf_ref. rewrite F. cbn [obind].
    rewrite cast_val_same. reflexivity.
  - intros A. pose proof (SV _ _ A) as A'. rewrite (O _ _ H), (O _ _ H') in A'. unfold v_into. cbn [p_stat p_buf vinst si_ty prog_of vt_addr]. rewrite A, Z.eqb_refl.
    unfold vval in *. unfold buf_into, buf_ref. revert v. rewrite A' in F |- *. intros v. rewrite F. cbn [obind]. rewrite cast_val_same. eexists. reflexivity.
  - intros A. unfold v_into. cbn [p_stat p_buf vinst si_ty prog_of vt_addr]. destruct (Z.eqb_spec (cr_addr c (vs_table s)) (cr_addr c (vs_table s'))); [contradiction|reflexivity].
Qed.
