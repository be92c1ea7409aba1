(** The demo game survives saving and loading. *)
From Coq Require Import String ZArith List Bool Lia.
From Verif Require Import M_Outcome M_Ints M_Value M_Types M_Qualifier M_Search M_Stat M_StatMap M_HashMap M_Pair M_Registry M_Defaults M_Querier M_Serde M_Bytes M_ValueSerde M_ValueBytes
  S_Search S_StatMap S_Pair S_Defaults S_Defaults2 S_Querier S_Serde S_Bytes S_Totals S_ValueSerde S_ValueBytes S_EndToEnd S_Demo S_DemoDefaults S_DemoQuery S_DemoGame S_Reload S_DemoReload
  L_Bytes3 L_ValueBytes L_ValueBytes2 L_Reload L_EndToEnd L_DemoGame.
Import ListNotations.
Local Open Scope Z_scope.

Lemma i32b_ok n : i32b n = true -> is_i32 n.
Proof. unfold i32b, is_i32. intros H. apply andb_true_iff in H as [H1 H2]. lia. Qed.
Lemma fine_ok e : demo_fine e = true -> (storable demoC e /\ name_back saveN demo_reg (e_stat e)) /\ bstorable saveN demoB demo_reg e.
Proof.
  destruct e as [[s i] [a b] [t v]]. unfold demo_fine. intros H.
  apply andb_true_iff in H as [H V]. apply andb_true_iff in H as [H Q1]. apply andb_true_iff in H as [H Q2]. apply andb_true_iff in H as [H Q3].
  apply andb_true_iff in H as [H Q4]. apply Z.eqb_eq in H. subst i. cbn [any_of all_of] in *.
  assert (Ra : 0 <= a < 2 ^ 32) by lia. assert (Rb : 0 <= b < 2 ^ 32) by lia.
  assert (F : forall x : Z, flag_back demoC x) by (intros x; exists (DInt x); split; reflexivity).
  assert (NB : forall s : demo_s, name_back saveN demo_reg (@Inst demo s 0)).
  { intros []; eexists; split; reflexivity. }
  assert (NB' : forall s : demo_s, bname_back saveN demoB demo_reg (@Inst demo s 0)).
  { intros []; eexists; repeat split; reflexivity. }
  assert (K : value_back demoC (@Inst demo s 0) (@Buf demo t v) /\ bvalue_back demoB (@Inst demo s 0) (@Buf demo t v)).
  { destruct s, t; try discriminate V; try (apply andb_true_iff in V as [V V4]; apply andb_true_iff in V as [V V3]; apply andb_true_iff in V as [V1 V2]);
      (split; [split; [reflexivity|split; [reflexivity|]]|split; [reflexivity|split; [reflexivity|]]]).
    - destruct v as [x y z w]. exists (Quad x y z w), (DSeq [DInt x; DInt y; DInt z; DInt w]). repeat split; reflexivity.
    - exists v. split; [reflexivity|]. apply demo_quad_back. repeat split; try apply i32b_ok; try assumption; apply i32b_ok; assumption.
    - destruct v as [x y z w]. exists (Quad x y z w), (DSeq [DInt x; DInt y; DInt z; DInt w]). repeat split; reflexivity.
    - exists v. split; [reflexivity|]. apply demo_quad_back. repeat split; try apply i32b_ok; try assumption; apply i32b_ok; assumption.
    - exists v, (DBool v). repeat split; reflexivity.
    - exists v. split; [reflexivity|]. apply demo_bool_back. }
  destruct K as [K1 K2]. cbn [e_stat e_val e_qual any_of all_of]. split; [split; [split; [exact K1|split; apply F]|apply NB]|].
  split; [exact K2|]. split; [apply demo_flag_back, Ra|]. split; [apply demo_flag_back, Rb|apply NB'].
Qed.
Lemma prefix_firstn {A} (l1 l2 l : list A) : l = l1 ++ l2 -> l1 = firstn (List.length l1) l /\ (List.length l1 <= List.length l)%nat.
Proof. intros ->. rewrite firstn_app, Nat.sub_diag, firstn_all, app_nil_r, app_length. split; [reflexivity|lia]. Qed.
Lemma often_calls {P Q} (r : registry P) (l : list (mop P Q)) : calls_of (often r l) = l.
Proof. induction l as [|o l IH]; [reflexivity|]. cbn. f_equal. exact IH. Qed.
Lemma fine_savable lf : (forall l1 x l2, lf = l1 ++ x :: l2 -> match x with Call _ => True | Document r | Bytes r => r = demo_reg end) ->
  always_fine (calls_of lf) = true -> savable bs_new saveN demoC demoB lf.
Proof.
  intros HR HF l1 x l2 m E R. specialize (HR _ _ _ E).
  assert (Ec : calls_of lf = calls_of l1 ++ calls_of (x :: l2)). { rewrite E. apply calls_app. }
  destruct (prefix_firstn _ _ _ Ec) as [Ef Le].
  unfold always_fine in HF. rewrite forallb_forall in HF. specialize (HF (List.length (calls_of l1))).
  rewrite <- Ef in HF.
  assert (D : demo_run (calls_of l1) = m) by (unfold demo_run; rewrite R; reflexivity). rewrite D in HF.
  assert (HF' : forallb demo_fine m && (List.length m <? 1000)%nat = true). { apply HF. apply in_seq. lia. }
  apply andb_true_iff in HF' as [H1 H2]. apply Nat.ltb_lt in H2. rewrite forallb_forall in H1.
  destruct x as [o|r|r]; [exact Logic.I| |]; subst r.
  - intros e He. apply (fine_ok e), H1, He.
  - split; [intros e He; apply (fine_ok e), H1, He|]. apply Nat2Z.inj_lt in H2. lia.
Qed.
Lemma often_regs {P Q} (r : registry P) (l : list (mop P Q)) : forall l1 x l2, often r l = l1 ++ x :: l2 -> match x with Call _ => True | Document r' | Bytes r' => r' = r end.
Proof.
  intros l1 x l2 E. assert (Hx : In x (often r l)) by (rewrite E; apply in_elt). unfold often in Hx. apply in_flat_map in Hx as (o & _ & Hx).
  destruct Hx as [<-|[<-|[<-|[]]]]; reflexivity || exact Logic.I.
Qed.
Lemma often_savable l : always_fine l = true -> savable bs_new saveN demoC demoB (often demo_reg l).
Proof. intros H. apply fine_savable; [apply often_regs|]. rewrite often_calls. exact H. Qed.
Lemma often_reloaded m l : logged bs_new m l -> always_fine (map method l) = true -> reloaded bs_new saveN demoC demoB m l.
Proof.
  intros (H1 & H2 & H3) H. split; [exact H1|]. split; [exact H2|]. exists (often demo_reg (map method l)).
  split; [apply often_calls|]. split; [apply often_savable, H|]. apply C77_no_trace_proof; [apply often_savable, H|]. rewrite often_calls. exact H3.
Qed.
Lemma demo_kept cached : kept_up bs_new saveN demoC demoB op_size op_align (demo_game cached).
Proof.
  assert (HF : forallb (fun l => always_fine (map method l)) all_logs = true) by (vm_compute; reflexivity).
  rewrite forallb_forall in HF.
  destruct (demo_set_up cached) as [H1 H2 H3 H4 H5 H6 H7]. constructor; try assumption.
  - cbn [demo_game g_global] in *. inversion H3 as [|p l' G1 G2]; subst. constructor; [|constructor]. apply often_reloaded; [exact G1|]. apply HF. left. reflexivity.
  - cbn [demo_game g_comp g_rel g_child app] in *. inversion H7 as [|p l' G1 G2]; subst. inversion G2 as [|p' l'' G3 G4]; subst. constructor; [|constructor; [|constructor]].
    + intros d. specialize (G1 d). cbn [keeper k_map k_log] in *. unfold tab in *. destruct (List.find _ own_logs) as [p|] eqn:E; [|exact Logic.I].
      cbn [option_map] in *. apply often_reloaded; [exact G1|]. apply HF. apply find_some in E as [E _]. right. apply in_or_app. left. apply in_map, E.
    + intros d. specialize (G3 d). cbn [keeper k_map k_log] in *. unfold tab in *. destruct (List.find _ child_logs) as [p|] eqn:E; [|exact Logic.I].
      cbn [option_map] in *. apply often_reloaded; [exact G3|]. apply HF. apply find_some in E as [E _]. right. apply in_or_app. right. apply in_map, E.
Qed.
Lemma fine_fits e : demo_fine e = true -> name_back saveN demo_reg (e_stat e) /\ bname_back saveN derivedB demo_reg (e_stat e) /\
  back (leaf_int I32) (any_of (e_qual e)) /\ back (leaf_int I32) (all_of (e_qual e)) /\
  bback (bleaf_int I32) (any_of (e_qual e)) /\ bback (bleaf_int I32) (all_of (e_qual e)).
Proof.
  destruct e as [[s i] [a b] [t v]]. unfold demo_fine. intros H.
  apply andb_true_iff in H as [H V]. apply andb_true_iff in H as [H Q1]. apply andb_true_iff in H as [H Q2]. apply andb_true_iff in H as [H Q3].
  apply andb_true_iff in H as [H Q4]. apply Z.eqb_eq in H. subst i. cbn [any_of all_of e_stat e_qual] in *.
  assert (K : forall x : Z, 0 <= x < 2 ^ 31 -> small I32 x /\ back (leaf_int I32) x).
  { intros x Hx. assert (Sm : in_range I32 x = true) by (unfold in_range; change (imin I32) with (- 2 ^ 31); change (imax I32) with (2 ^ 31 - 1); lia).
    split; [exact Sm|]. unfold back. cbn [leaf_int rd wr]. rewrite Sm. reflexivity. }
  destruct (K a) as [Ka Ka']; [lia|]. destruct (K b) as [Kb Kb']; [lia|].
  split; [destruct s; eexists; split; reflexivity|]. split; [destruct s; eexists; repeat split; reflexivity|].
  split; [exact Ka'|]. split; [exact Kb'|]. split; apply bback_int; assumption.
Qed.
Lemma often_fits l : always_fine l = true -> forall l1 x l2 m, often demo_reg l = l1 ++ x :: l2 -> mops_run bs_new [] (calls_of l1) = Done m ->
  match x with Call _ => True | Document r => @document_fits demo intQ saveN (fun _ => true) (leaf_int I32) r m | Bytes r => @bytes_fit demo intQ saveN derivedB (fun _ => true) (bleaf_int I32) r m end.
Proof.
  intros HF l1 x l2 m E R. assert (HR := often_regs _ _ _ _ _ E).
  assert (Ec : l = calls_of l1 ++ calls_of (x :: l2)). { rewrite <- calls_app, <- E. symmetry. apply often_calls. }
  destruct (prefix_firstn _ _ _ Ec) as [Ef Le].
  unfold always_fine in HF. rewrite forallb_forall in HF. specialize (HF (List.length (calls_of l1))). rewrite <- Ef in HF.
  assert (D : demo_run (calls_of l1) = m) by (unfold demo_run; rewrite R; reflexivity). rewrite D in HF.
  assert (HF' : forallb demo_fine m && (List.length m <? 1000)%nat = true). { apply HF. apply in_seq. lia. }
  apply andb_true_iff in HF' as [H1 H2]. apply Nat.ltb_lt in H2. rewrite forallb_forall in H1.
  destruct x as [o|r|r]; [exact Logic.I| |]; subst r.
  - intros e He. destruct (fine_fits e (H1 e He)) as (A1 & A2 & A3 & A4 & A5 & A6). auto.
  - split; [apply Nat2Z.inj_lt in H2; lia|]. intros e He. destruct (fine_fits e (H1 e He)) as (A1 & A2 & A3 & A4 & A5 & A6). auto.
Qed.
Lemma event_lived l : forall m m', fold_left demo_event l (Some m) = Some m' -> lived bs_new saveN demoC demoB m l m'.
Proof.
  assert (NN : forall l : list (event demo intQ), fold_left demo_event l None = None) by (intros k; induction k; [reflexivity|assumption]).
  induction l as [|x l IH]; intros m m' H; [injection H as <-; constructor|]. cbn [fold_left] in H.
  destruct (demo_event (Some m) x) as [m1|] eqn:E; [|rewrite NN in H; discriminate]. specialize (IH _ _ H).
  destruct x as [o|r|r]; cbn [demo_event] in E.
  - destruct (mop_run bs_new m o) as [x| | |] eqn:R; try discriminate. injection E as <-. eapply lived_call; [exact R|exact IH].
  - destruct (ser_map saveN demoC m) as [[d|]| | |] eqn:S1; try discriminate. destruct (de_map demoC (WReg r) d) as [o| | |] eqn:S2; try discriminate.
    subst o. eapply lived_document; [exact S1|exact S2|exact IH].
  - destruct (put_map saveN demoB m) as [[b|]| | |] eqn:S1; try discriminate. destruct (take_map demoB (WReg r) b) as [[[m2 [|]]|]| | |] eqn:S2; try discriminate.
    injection E as <-. eapply lived_bytes; [exact S1|exact S2|exact IH].
Qed.
Lemma survives_lived l : survives l = true -> lived bs_new saveN demoC demoB [] l (demo_life l).
Proof.
  unfold survives, demo_life. destruct (fold_left demo_event l (Some [])) as [m|] eqn:E; [intros _; apply event_lived; exact E|discriminate].
Qed.

Lemma C77_other_names_refuted_proof :
  exists (l : list (event demo intQ)) (m m' : map_t demo intQ),
  mops_run bs_new [] (calls_of l) = Done m /\ lived bs_new saveN demoC demoB [] l m' /\ m_len m' = m_len m /\
  get_hp m none = Done (Some (num 3)) /\ get_atk m none = Done (Some (num 4)) /\
  get_hp m' none = Done None /\ get_atk m' none = Done (Some (num 3)).
Proof.
  exists [Call (put_hp none 3); Call (put_atk none 4); Document swapped_reg], (demo_run [put_hp none 3; put_atk none 4]),
    (demo_life [Call (put_hp none 3); Call (put_atk none 4); Document swapped_reg]).
  split.
  - assert (R : runs [put_hp none 3; put_atk none 4] = true) by (vm_compute; reflexivity). unfold runs in R. unfold demo_run.
    change (calls_of [Call (put_hp none 3); Call (put_atk none 4); Document swapped_reg]) with [put_hp none 3; put_atk none 4].
    destruct (mops_run bs_new [] [put_hp none 3; put_atk none 4]); try discriminate. reflexivity.
  - split; [apply survives_lived; vm_compute; reflexivity|]. repeat split; vm_compute; reflexivity.
Qed.
