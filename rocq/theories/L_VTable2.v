(** The proofs of P_VTable.v. *)
From Coq Require Import ZArith Arith List Bool Lia Sorted Permutation Relations.
From Verif Require Import M_Outcome M_Value M_Types M_Qualifier M_Search M_Stat M_StatMap M_AnyOrd M_VTable
  S_Search S_StatMap S_Demo S_AnyOrd S_VTable L_Outcome L_Search L_StatMap3 L_StatMap4 L_StatMap5 L_AnyOrd L_AnyOrdProofs L_VTable.
Import ListNotations.

(** ** Who can return which table *)
Lemma sub_refl T : sub T T = true.
Proof. induction T as [n|[]|T IH]; cbn; auto. apply Nat.eqb_refl. Qed.
Lemma sub_trans a : forall b d, sub a b = true -> sub b d = true -> sub a d = true.
Proof.
  induction a as [n|[]|a IH]; intros [m|[]|b] [k|[]|d]; cbn; try discriminate; auto.
  - rewrite !Nat.eqb_eq. congruence.
  - apply IH.
Qed.
Lemma coerces_inv a b : coerces Invariant a b = true <-> a = b.
Proof. cbn. destruct (rty_dec a b); split; congruence. Qed.

Lemma C67_invariant_proof : forall c, accepted Invariant c -> own_tables c.
Proof.
  intros c A T t H. induction H as [T n t E|T n U t E H IH]; pose proof (A T n) as B; rewrite E in B; apply coerces_inv in B; cbn in B; congruence.
Qed.
Lemma C67_covariant_proof : forall c, accepted Covariant c -> forall T t, gives c T t -> sub (fst t) T = true.
Proof.
  intros c A T t H. induction H as [T n t E|T n U t E H IH]; pose proof (A T n) as B; rewrite E in B; cbn in B; [exact B|].
  eapply sub_trans; eassumption.
Qed.
Lemma C67_rigid_proof :
  (forall c, accepted declared c -> forall T t, rigid T -> gives c T t -> fst t = T) /\
  (forall n, rigid (Named n)) /\ rigid (FnRef ForAny) /\ (forall T, rigid T -> rigid (Wrap T)).
Proof.
  split; [|split; [|split]].
  - intros c A T t R H. apply R. eapply C67_covariant_proof; eassumption.
  - intros n [m|[]|U]; cbn; try discriminate. rewrite Nat.eqb_eq. congruence.
  - intros [m|[]|U]; cbn; try discriminate. reflexivity.
  - intros T R [m|[]|U]; cbn; try discriminate. intros H. f_equal. apply R, H.
Qed.
Lemma C67_never_shared_proof : forall c, own_tables c -> forall T U t, gives c T t -> gives c U t -> T = U.
Proof. intros c O T U t H1 H2. rewrite <- (O _ _ H1). apply (O _ _ H2). Qed.

(** ** Safety *)
Section Safe.
  Context {c : crate} {Q : QFlag}.
  Variable sr : searcher.
  Variable srt : sorter.
  Hypothesis C : search_contract sr.
  Hypothesis K : sort_contract srt.
  Hypothesis O : own_tables c.
  Hypothesis SV : same_values c.
  Notation P := (prog_of c).
  Notation map_t := (map_t P Q).
  Notation bs := (pure_search sr).
  Notation ty s := (vt_value P (si_ty (vinst s))).

  Lemma comes_ty s : comes (c:=c) s -> vval c s = ty s.
  Proof. intros H. unfold vval. cbn. rewrite (O _ _ H). reflexivity. Qed.
  Lemma SV' : forall a b : sty P, vt_addr P a = vt_addr P b -> vt_value P a = vt_value P b.
  Proof. exact SV. Qed.

  Lemma vbuild_safe T (l : list (qualifier Q * (table * Z) * val (VT P (cr_value c T)))) : Forall (fun y => gives c T (fst (snd (fst y)))) l ->
    vbuild T l <> UB /\ forall r, vbuild T l = Done r -> typed r.
  Proof.
    induction l as [|[[q [t i]] v] l IH]; intros G; cbn [vbuild].
    - split; [discriminate|]. intros r H. inversion H. constructor.
    - inversion G as [|? ? Gt G']; subst. cbn in Gt. destruct (IH G') as [I1 I2]. destruct (okb_from (P:=P) (cr_value c T) v) as [F1 F2].
      destruct (buf_from P (cr_value c T) v) as [b|p| |]; cbn [obind]; try (split; [congruence|intros; discriminate]).
      destruct (vbuild T l) as [r|p| |]; cbn [obind]; try (split; [congruence|intros; discriminate]).
      split; [discriminate|]. intros r' H. inversion H; subst. constructor; [|apply I2; reflexivity].
      unfold ok_entry, ok_buf. cbn. rewrite (O _ _ Gt). apply (F2 b eq_refl).
  Qed.
  Lemma vop_sound_cop x : vop_comes x -> vop_sound x -> sound_cop (vop_core (c:=c) (Q:=Q) x).
  Proof.
    intros G S. destruct x as [q s v|q s b|q s f|q s|q s op|q s f|s|s f| |T l]; cbn [vop_core sound_cop vop_comes vop_sound] in *; auto;
      try (rewrite <- (comes_ty s G)).
    - apply okb_from.
    - apply okb_from.
    - intros b Hb. apply okb_mut; assumption.
    - split; [intros b Hb; apply okb_mut; assumption|]. pose proof (S (sv_default (VT P (vval c s)))) as S'. unfold into_stat.
      destruct (write_to op (sv_default (VT P (vval c s)))) as [v|p| |]; cbn [obind]; try (split; [congruence|intros; discriminate]). apply okb_from.
    - split; [intros b Hb; apply okb_mut; assumption|]. pose proof (S (sv_default (VT P (vval c s)))) as S'.
      destruct (f (sv_default (VT P (vval c s)))) as [v|p| |]; cbn [obind]; try (split; [congruence|intros; discriminate]). apply okb_from.
    - intros q b Hb. apply okb_mut; auto.
    - apply vbuild_safe, G.
  Qed.
  Lemma vop_good o m x : good m -> vop_comes x -> vop_sound x ->
    vop_run sr srt o m x <> UB /\ forall e, vop_run (c:=c) (Q:=Q) sr srt o m x = Done (Some (e, true)) -> good (x_map e).
  Proof.
    intros GT G S. destruct (cop_fine sr srt C K SV' o m _ GT (vop_sound_cop x G S)) as [F1 F2]. unfold vop_run.
    destruct (any_cop sr srt o m (vop_core x)) as [[[e ok]|]|p| |] eqn:E; cbn [obind]; try (split; [congruence|intros; discriminate]).
    - destruct (F2 e ok eq_refl) as [T [Gr R]].
      assert (End : (Done (Some (e, ok)) : outcome (option (effect P Q (buffer P) * bool))) <> UB /\
        forall e', (Done (Some (e, ok)) : outcome (option (effect P Q (buffer P) * bool))) = Done (Some (e', true)) -> good (x_map e')).
      { split; [discriminate|]. intros e' H. inversion H; subst. split; auto. }
      destruct x as [q s v|q s b|q s f|q s|q s op|q s f|s|s f| |U l]; try exact End; cbn [vop_core vop_comes] in *.
      + destruct (x_returned e) as [b|]; [|exact End]. specialize (R b eq_refl). rewrite <- (comes_ty s G) in R.
        destruct (okb_inv _ _ R) as [v [-> Hok]]. unfold buf_read_move. rewrite buf_ref_ok by exact Hok. exact End.
      + destruct (slice_good sr C m (vinst s) GT) as [l [-> [Tl _]]]. cbn [obind]. rewrite (drop_all_ok l Tl). exact End.
      + destruct GT as [_ Tm]. rewrite (drop_all_ok m Tm). exact End.
  Qed.
  Lemma vrun_good l : forall m, good m -> Forall vcall_ok l -> vrun sr srt m l <> UB /\ forall m', vrun (c:=c) (Q:=Q) sr srt m l = Done m' -> good m'.
  Proof.
    induction l as [|[o x] l IH]; intros m GT F; cbn [vrun].
    - split; [discriminate|]. intros m' H. inversion H; subst. exact GT.
    - inversion F as [|? ? [F1 F2] F']; subst. cbn [snd] in *. destruct (vop_good o m x GT F1 F2) as [V1 V2].
      destruct (vop_run sr srt o m x) as [[[e []]|]|p| |]; cbn [obind]; try (split; [congruence|intros; discriminate]).
      apply IH; auto.
  Qed.
  Lemma good_nil : good ([] : map_t). Proof. split; constructor. Qed.
End Safe.

Lemma C67_tables_safe_proof : forall (c : crate) (Q : QFlag) (sr : searcher) (srt : sorter),
  search_contract sr -> sort_contract srt -> own_tables c -> same_values c ->
  forall l : list (flag_order Q * vop c Q), Forall vcall_ok l -> vrun sr srt [] l <> UB.
Proof. intros c Q sr srt C K O SV l F. apply (vrun_good sr srt C K O SV l [] good_nil F). Qed.

Lemma C67_tables_observers_proof : forall (c : crate) (Q : QFlag) (sr : searcher) (srt : sorter),
  search_contract sr -> sort_contract srt -> own_tables c -> same_values c -> sound_prog (P:=prog_of c) ->
  forall (l : list (flag_order Q * vop c Q)) (m : map_t (prog_of c) Q), Forall vcall_ok l -> vrun sr srt [] l = Done m ->
  (forall o q s, comes (c:=c) s -> v_get sr o m q s <> UB) /\ (forall s, comes (c:=c) s -> v_iter sr m s <> UB) /\
  (forall x s, comes (c:=c) s -> v_query sr m x s <> UB) /\ m_clone m = Done m /\ m_drop m = Done tt.
Proof.
  intros c Q sr srt C K O SV [J _] l m F R. destruct (vrun_good sr srt C K O SV l [] good_nil F) as [_ G]. specialize (G m R).
  split; [|split; [|split]].
  - intros o q s H. unfold v_get. destruct (find_good sr C (SV' SV) o m q (vinst s) G) as [->|[->|[b [-> B]]]]; cbn [obind]; try discriminate.
    rewrite <- (comes_ty O s H) in B. destruct (okb_inv _ _ B) as [v [-> Hok]]. rewrite buf_ref_ok by exact Hok. discriminate.
  - intros s H. unfold v_iter. destruct (slice_good sr C m (vinst s) G) as [l' [-> [T E]]]. cbn [obind].
    assert (N : read_each (P:=prog_of c) (vt_value (prog_of c) (si_ty (vinst s))) l' <> UB).
    { destruct (read_each_good (SV' SV) (vinst s) l' T E) as [r ->]. discriminate. }
    rewrite <- (comes_ty O s H) in N. exact N.
  - intros x s H. unfold v_query, v_new. destruct (okb_from (P:=prog_of c) (vval c s) (sv_default (VT (prog_of c) (vval c s)))) as [F1 F2].
    destruct (buf_from _ _ _) as [b|p| |]; cbn [obind]; try congruence. specialize (F2 b eq_refl).
    rewrite (comes_ty O s H) in F2. destruct (stream_good sr C (SV' SV) m x (vinst s) b J G F2) as [S1 S2].
    destruct (map_stream _ _ _ _) as [p|p| |]; cbn [obind]; try congruence. destruct (S2 p eq_refl) as [_ B].
    rewrite <- (comes_ty O s H) in B. destruct (okb_inv _ _ B) as [v [-> Hok]]. unfold buf_into. rewrite buf_ref_ok by exact Hok. discriminate.
  - destruct G as [_ T]. split; [apply clone_typed, T|apply drop_all_ok, T].
Qed.
Lemma C67_pairs_proof : forall c : crate, own_tables c -> same_values c ->
  forall s v s' (p : pair (prog_of c)), comes (c:=c) s -> comes (c:=c) s' -> v_new s v = Done p -> v_into p s' <> UB.
Proof.
  intros c O SV s v s' p H H'. unfold v_new. intros E. destruct (okb_from (P:=prog_of c) (vval c s) v) as [_ F].
  destruct (buf_from (prog_of c) (vval c s) v) as [b|q| |]; cbn [obind] in E; try discriminate. inversion E; subst. specialize (F b eq_refl).
  unfold v_into. cbn [p_stat p_buf]. destruct (Z.eqb_spec (vt_addr (prog_of c) (si_ty (vinst s))) (vt_addr (prog_of c) (vs_table s'))) as [A|A]; [|discriminate].
  cbn in A. apply SV in A. rewrite (O _ _ H), (O _ _ H') in A. unfold vval in *. rewrite A in F.
  destruct (okb_inv _ _ F) as [w [-> Hok]]. unfold buf_into. rewrite buf_ref_ok by exact Hok. discriminate.
Qed.

(** With one table for each call the methods are those of M_StatMap.v. *)
Lemma raise_core c Q (o : mop (prog_of c) Q) : vop_core (raise o) = mop_core o.
Proof.
  destruct o as [q s v|q s b|q s f|q s|q s op|q s f|s|s f| |U l]; try (destruct s; reflexivity); try reflexivity.
  cbn. f_equal. induction l as [|[[q i] v] l IH]; cbn; [reflexivity|]. rewrite IH. reflexivity.
Qed.
Lemma C67_same_as_map_proof : forall (c : crate) (Q : QFlag) (sr : searcher) (srt : sorter) (l : list (flag_order Q * mop (prog_of c) Q)) m,
  vrun sr srt m (map (fun k => (fst k, raise (snd k))) l) = any_run sr srt m (map (fun k => ACall (snd k) (fst k) false) l).
Proof.
  intros c Q sr srt l. induction l as [|[o x] l IH]; intros m; cbn [map vrun any_run fst snd]; [reflexivity|].
  unfold any_step. cbn [a_order a_op a_catch]. unfold vop_run, any_mop. rewrite raise_core.
  destruct (any_cop sr srt o m (mop_core x)) as [[[e ok]|]|p| |]; cbn [obind]; try reflexivity.
  - assert (E : match (Done (Some (e, ok)) : outcome (option (effect (prog_of c) Q (buffer (prog_of c)) * bool))) with
      | Done (Some (e0, true)) => vrun sr srt (x_map e0) (map (fun k => (fst k, raise (snd k))) l)
      | _ => Panics PUser end =
      let! m' := (if ok || false then Done (x_map e) else Panics PUser) in any_run sr srt m' (map (fun k => ACall (snd k) (fst k) false) l)).
    { destruct ok; cbn; [apply IH|reflexivity]. }
    destruct x as [q s v|q s b|q s f|q s|q s op|q s f|s|s f| |U l']; try exact E; cbn [raise].
    + destruct (x_returned e) as [b|]; [|exact E]. change (vval c (raise_inst s)) with (vt_value (prog_of c) (si_ty s)).
      destruct (buf_read_move _ _ b); cbn [obind]; try reflexivity. exact E.
    + destruct s as [ts is]. change (vinst (raise_inst {| si_ty := ts; si_index := is |})) with (@Inst (prog_of c) ts is).
      destruct (slice _ m _) as [z|p| |]; cbn [obind]; try reflexivity. destruct (drop_all z); cbn [obind]; try reflexivity. exact E.
    + destruct (drop_all m); cbn [obind]; try reflexivity. exact E.
Qed.

(** ** Witnesses *)
Lemma unary_inj n : forall m p q, unary n p = unary m q -> n = m /\ p = q.
Proof.
  induction n as [|n IH]; intros [|m] p q H; cbn in H; try discriminate; inversion H as [H']; [auto|].
  apply IH in H' as [-> ->]. auto.
Qed.
Lemma encode_inj t : forall u p q, encode t p = encode u q -> t = u /\ p = q.
Proof.
  induction t as [n|[]|t IH]; intros [m|[]|u] p q H; cbn in H; inversion H as [H']; auto.
  - apply unary_inj in H' as [-> ->]. auto.
  - apply IH in H' as [-> ->]. auto.
Qed.
Lemma far_inj t u : far t = far u -> t = u.
Proof.
  destruct t as [t n], u as [u m]. unfold far. cbn. intros H. inversion H as [H']. apply encode_inj in H' as [-> H2]. apply unary_inj in H2 as [-> _]. reflexivity.
Qed.

Lemma smuggler_accepted : accepted declared smuggler.
Proof.
  intros T n. unfold smuggler, shop, cr_body. destruct (rty_dec T narrow) as [->|N]; cbn [expr_owner fst declared coerces]; [reflexivity|apply sub_refl].
Qed.
Lemma smuggler_wide : gives smuggler wide (wide, 0).
Proof. apply (gives_own smuggler wide 0). reflexivity. Qed.
Lemma smuggler_narrow : gives smuggler narrow (wide, 0).
Proof. apply (gives_asked smuggler narrow 0 wide); [reflexivity|apply smuggler_wide]. Qed.
Lemma C67_declared_refuted_proof :
  exists c : crate, accepted declared c /\ apart c /\ exists (k : flag_order intQ * vop c intQ) m (s : vstat),
  vcall_ok k /\ comes (c:=c) s /\ vrun any_new insertion [] [k] = Done m /\
  v_get any_new steady m none s = UB /\ v_query any_new m (@Aggregate intQ 0%Z) s = UB.
Proof.
  exists smuggler. split; [apply smuggler_accepted|]. split; [intros t u; apply far_inj|].
  exists (smug_put 3), (v_or (vrun any_new insertion [] [smug_put 3])), (VStat narrow (wide, 0) 0).
  split; [split; [apply smuggler_wide|exact I]|]. split; [apply smuggler_narrow|].
  split; [reflexivity|]. split; apply is_ub_true; vm_compute; reflexivity.
Qed.
Lemma C67_several_tables_refuted_proof :
  exists c : crate, accepted Invariant c /\ apart c /\ exists (k : flag_order intQ * vop c intQ) m (s : vstat),
  vcall_ok k /\ comes (c:=c) s /\ vs_impl s = Named 0 /\ vrun any_new insertion [] [k] = Done m /\ length m = 1 /\
  (exists t v, snd k = VInsert none (VStat (vs_impl s) t (vs_index s)) v) /\ v_get any_new steady m none s = Done None.
Proof.
  exists fickle. split.
  { intros T n. apply coerces_inv. reflexivity. }
  split; [intros t u; apply far_inj|].
  exists (fickle_put 0 3), (v_or (vrun any_new insertion [] [fickle_put 0 3])), (VStat (Named 0) (Named 0, 1) 0).
  split; [split; [apply (gives_own fickle (Named 0) 0); reflexivity|exact I]|].
  split; [apply (gives_own fickle (Named 0) 1); reflexivity|]. split; [reflexivity|]. split; [reflexivity|]. split; [reflexivity|].
  split; [exists (Named 0, 0), (num 3); reflexivity|]. reflexivity.
Qed.
Lemma C67_merged_refuted_proof :
  exists c : crate, accepted Invariant c /\ same_values c /\ exists (k : flag_order intQ * vop c intQ) m (s : vstat) v,
  vcall_ok k /\ comes (c:=c) s /\ vs_impl s = Named 1 /\ vrun any_new insertion [] [k] = Done m /\
  (exists t v, snd k = VInsert none (VStat (Named 0) t (vs_index s)) v) /\ v_get any_new steady m none s = Done (Some v).
Proof.
  exists merged. split.
  { intros T n. apply coerces_inv. reflexivity. }
  split.
  { intros [t n] [u k]. unfold merged, shop, cr_addr, cr_value. cbn [fst snd]. intros H. apply far_inj in H. inversion H as [[H1 H2]].
    destruct (rty_dec t (Named 1)), (rty_dec u (Named 1)); subst; try reflexivity. }
  exists (merged_put 0 3), (v_or (vrun any_new insertion [] [merged_put 0 3])), (VStat (Named 1) (Named 1, 0) 0), (num 3).
  split; [split; [apply (gives_own merged (Named 0) 0); reflexivity|exact I]|].
  split; [apply (gives_own merged (Named 1) 0); reflexivity|]. split; [reflexivity|]. split; [reflexivity|].
  split; [exists (Named 0, 0), (num 3); reflexivity|]. reflexivity.
Qed.
