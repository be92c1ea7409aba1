From Coq Require Import ZArith List Bool Eqdep_dec Lia.
From Verif Require Import M_Qualifier M_Search M_Pair M_Querier.
From Verif Require Import M_Outcome M_Value M_Stat M_StatMap M_HashMap M_Defaults S_StatMap S_Defaults S_Defaults2 L_StatMap3 L_HashMap L_Defaults.
Import ListNotations.

Section L.
  Context {P : Prog} (o_size o_align : vty P -> Z).
  Hypothesis Hd : distinct_vtables P.
  Notation tyof s := (vt_value P (si_ty s)).
  Let eqb_ok := inst_eqb_ok P Hd.
  Lemma inst_dec (a b : inst P) : {a = b} + {a <> b}.
  Proof. destruct (inst_eqb a b) eqn:E; [left; apply eqb_ok, E|right; intros ->; rewrite (proj2 (eqb_ok b b) eq_refl) in E; discriminate]. Qed.
  Lemma insert_inj s v v' : DInsert (P := P) s v = DInsert s v' -> v = v'.
  Proof. intros H. injection H as H. apply (inj_pair2_eq_dec _ inst_dec) in H. exact H. Qed.

  Lemma d_run_app l l' : forall d, d_run o_size o_align d (l ++ l') =
    let! r := d_run o_size o_align d l in let! r' := d_run o_size o_align (fst r) l' in Done (fst r', snd r ++ snd r').
  Proof.
    induction l as [|c l IH]; intros d; cbn [app d_run].
    - cbn [obind fst snd app]. destruct (d_run o_size o_align d l') as [[? ?]| | |]; reflexivity.
    - destruct (d_step o_size o_align d c) as [[d1 x]| | |]; cbn [obind fst snd]; [|reflexivity..]. rewrite IH.
      destruct (d_run o_size o_align d1 l) as [[d2 y]| | |]; cbn [obind fst snd]; [|reflexivity..].
      destruct (d_run o_size o_align d2 l') as [[d3 z]| | |]; cbn [obind fst snd]; [|reflexivity..]. rewrite app_assoc. reflexivity.
  Qed.

  Lemma patched_app (s : inst P) l1 l2 v v1 v2 : patched s l1 v v1 -> patched s l2 v1 v2 -> patched s (l1 ++ l2) v v2.
  Proof. induction 1; intros H2; cbn; [exact H2|apply patched_other; auto|eapply patched_mine; eauto]. Qed.

  Definition ins_free (s : inst P) (l : list (dcall P)) : Prop := forall v, ~ In (DInsert s v) l.
  (** Every stat is untouched, registered or orphaned. *)
  Lemma three l s : Forall (fun c => call_stat c <> s) l \/ orphaned l s \/
    exists l1 v l2, l = l1 ++ DInsert s v :: l2 /\ ins_free s l2.
  Proof.
    induction l as [|c l IH] using rev_ind; [left; constructor|].
    destruct (inst_dec (call_stat c) s) as [E|E].
    - destruct c as [s0 v|s0 op]; cbn in E; subst s0.
      + right. right. exists l, v, []. split; [reflexivity|]. intros v0 [].
      + destruct IH as [IH|[IH|(l1 & v & l2 & -> & Hf)]].
        * right. left. split; [exists op; apply in_or_app; right; left; reflexivity|].
          intros v H. apply in_app_or in H as [H|[H|[]]]; [|discriminate]. rewrite Forall_forall in IH. apply (IH _ H). reflexivity.
        * right. left. destruct IH as [(o & Ho) Hn]. split; [exists o; apply in_or_app; left; exact Ho|].
          intros v H. apply in_app_or in H as [H|[H|[]]]; [|discriminate]. apply (Hn v H).
        * right. right. exists l1, v, (l2 ++ [DPatch s op]). split; [rewrite <- app_assoc; reflexivity|].
          intros v0 H. apply in_app_or in H as [H|[H|[]]]; [|discriminate]. apply (Hf v0 H).
    - destruct IH as [IH|[IH|(l1 & v & l2 & -> & Hf)]].
      + left. apply Forall_app. split; [exact IH|constructor; [exact E|constructor]].
      + right. left. destruct IH as [(o & Ho) Hn]. split; [exists o; apply in_or_app; left; exact Ho|].
        intros v H. apply in_app_or in H as [H|[H|[]]]; [apply (Hn v H)|]. subst c. apply E. reflexivity.
      + right. right. exists l1, v, (l2 ++ [c]). split; [rewrite <- app_assoc; reflexivity|].
        intros v0 H. apply in_app_or in H as [H|[H|[]]]; [apply (Hf v0 H)|]. subst c. apply E. reflexivity.
  Qed.
  Lemma split_last (l : list (dcall P)) c l1 x l2 : l ++ [c] = l1 ++ x :: l2 ->
    (l2 = [] /\ c = x /\ l = l1) \/ exists l2', l2 = l2' ++ [c] /\ l = l1 ++ x :: l2'.
  Proof.
    destruct l2 as [|y l2] using rev_ind; intros E.
    - apply app_inj_tail in E as [-> ->]. left. auto.
    - right. exists l2. change (l1 ++ x :: l2 ++ [y]) with (l1 ++ (x :: l2) ++ [y]) in E. rewrite app_assoc in E.
      apply app_inj_tail in E as [-> ->]. auto.
  Qed.

  Definition mirrors (l : list (dcall P)) (d : defaults P) (s : inst P) : Prop :=
    (Forall (fun c => call_stat c <> s) l -> hget inst_eqb d s = None) /\
    (forall l1 v l2, l = l1 ++ DInsert s v :: l2 -> ins_free s l2 ->
       exists v', patched s l2 v v' /\ hget inst_eqb d s = Some (DVal (Buf (tyof s) v'))) /\
    (orphaned l s -> exists op, hget inst_eqb d s = Some (DOp (tyof s) op)).

  Lemma orphaned_other (l : list (dcall P)) c s : call_stat c <> s -> orphaned (l ++ [c]) s -> orphaned l s.
  Proof.
    intros E [(o & Ho) Hn]. split.
    - exists o. apply in_app_or in Ho as [H|[H|[]]]; [exact H|]. subst c. exfalso. apply E. reflexivity.
    - intros v H. apply (Hn v). apply in_or_app. left. exact H.
  Qed.
  Lemma mirrors_other l d d' c s : call_stat c <> s -> hget inst_eqb d' s = hget inst_eqb d s -> mirrors l d s -> mirrors (l ++ [c]) d' s.
  Proof.
    intros E Eh (A & B & C). unfold mirrors. rewrite Eh. split; [|split].
    - intros H. apply Forall_app in H as [H _]. apply A, H.
    - intros l1 v l2 El Hf. apply split_last in El as [(-> & -> & ->)|(l2' & -> & ->)].
      + exfalso. apply E. reflexivity.
      + destruct (B l1 v l2' eq_refl) as (v' & Hp & Hh).
        { intros v0 H. apply (Hf v0). apply in_or_app. left. exact H. }
        exists v'. split; [|exact Hh]. eapply patched_app; [exact Hp|]. apply patched_other; [exact E|constructor].
    - intros H. apply C, (orphaned_other _ _ _ E H).
  Qed.

  Lemma step_mirrors l d c : (forall s, mirrors l d s) -> fit_call o_size o_align c ->
    (exists s op, c = DPatch s op /\ orphaned l s /\ d_step o_size o_align d c = UB) \/
    ((forall s op, c = DPatch s op -> ~ orphaned l s) /\
     exists d' lost, d_step o_size o_align d c = Done (d', lost) /\ forall s, mirrors (l ++ [c]) d' s).
  Proof.
    intros M (F & T & V). destruct c as [s v|s op]; cbn [call_stat total_call] in *.
    - right. split; [discriminate|]. cbn [d_step]. unfold d_insert, buf_from. unfold fits in F. rewrite F. cbn [obind].
      pose proof (hget_hput_same inst_eqb eqb_ok d s (DVal (Buf (tyof s) v))) as H1.
      pose proof (hget_hput_other inst_eqb eqb_ok d s (DVal (Buf (tyof s) v))) as H2.
      destruct (hput _ _ _ _) as [d1 old]. cbn [fst] in *. eexists _, _. split; [reflexivity|]. intros s'.
      destruct (inst_dec s s') as [<-|E]; [|apply (mirrors_other l d); [exact E|apply H2; congruence|apply M]].
      unfold mirrors. rewrite H1. split; [|split].
      + intros H. apply Forall_app in H as [_ H]. inversion H; subst. cbn in *. congruence.
      + intros l1 v0 l2 El Hf. apply split_last in El as [(-> & Ec & ->)|(l2' & -> & ->)].
        * apply insert_inj in Ec. subst v0. exists v. split; [constructor|reflexivity].
        * exfalso. apply (Hf v). apply in_or_app. right. left. reflexivity.
      + intros [_ Hn]. exfalso. apply (Hn v). apply in_or_app. right. left. reflexivity.
    - cbn [d_step]. unfold d_patch. destruct (three l s) as [H0|[H0|(l1 & v & l2 & El & Hf)]].
      + right. split.
        { intros s0 op0 E. assert (s0 = s) by (injection E; congruence). subst s0. intros [(o & Ho) _].
          rewrite Forall_forall in H0. apply (H0 _ Ho). reflexivity. }
        destruct (M s) as (A & _). rewrite (A H0). destruct (T (sv_default (VT P (tyof s)))) as (w & ->). cbn [obind].
        rewrite V. cbn [obind]. eexists _, _. split; [reflexivity|]. intros s'.
        destruct (inst_dec s s') as [<-|E];
          [|apply (mirrors_other l d); [exact E|rewrite (hget_hput_other inst_eqb eqb_ok) by congruence; reflexivity|apply M]].
        unfold mirrors. rewrite (hget_hput_same inst_eqb eqb_ok). split; [|split].
        * intros H. apply Forall_app in H as [_ H]. inversion H; subst. cbn in *. congruence.
        * intros l1 v l2 El Hf. exfalso. apply split_last in El as [(_ & Ec & _)|(l2' & _ & ->)]; [discriminate|].
          apply Forall_app in H0 as [_ H0]. inversion H0; subst. cbn in *. congruence.
        * intros _. exists op. reflexivity.
      + left. exists s, op. split; [reflexivity|]. split; [exact H0|]. destruct (M s) as (_ & _ & C). destruct (C H0) as (op' & ->).
        cbn [d_cast]. unfold fits in F. rewrite F. reflexivity.
      + right. split.
        { intros s0 op0 E. assert (s0 = s) by (injection E; congruence). subst s0. intros [_ Hn].
          apply (Hn v). rewrite El. apply in_or_app. right. left. reflexivity. }
        destruct (M s) as (_ & B & _). destruct (B l1 v l2 El Hf) as (v' & Hp & Hh). rewrite Hh. cbn [d_cast]. unfold buf_ref.
        unfold fits in F. rewrite F. cbn [obind]. rewrite cast_val_same. cbn [obind]. destruct (T v') as (w & Ew). rewrite Ew. cbn [obind].
        eexists _, _. split; [reflexivity|]. intros s'.
        destruct (inst_dec s s') as [<-|E];
          [|apply (mirrors_other l d); [exact E|rewrite (hget_hset_other inst_eqb eqb_ok) by congruence; reflexivity|apply M]].
        unfold mirrors. rewrite (hget_hset_same inst_eqb d s _ _ Hh). split; [|split].
        * intros H. apply Forall_app in H as [_ H]. inversion H; subst. cbn in *. congruence.
        * intros l1' v0 l2' El' Hf'. apply split_last in El' as [(_ & Ec & _)|(l2'' & -> & El')]; [discriminate|].
          destruct (B l1' v0 l2'' El') as (w' & Hp' & Hh').
          { intros x Hx. apply (Hf' x). apply in_or_app. left. exact Hx. }
          rewrite Hh in Hh'. assert (Hb : Buf (tyof s) v' = Buf (tyof s) w') by congruence. clear Hh'.
          apply (f_equal (cast_val P (tyof s))) in Hb. rewrite !cast_val_same in Hb. injection Hb as <-.
          exists w. split; [|reflexivity].
          eapply patched_app; [exact Hp'|]. eapply patched_mine; [exact Ew|constructor].
        * intros [_ Hn]. exfalso. apply (Hn v). rewrite El. rewrite <- app_assoc. apply in_or_app. right. left. reflexivity.
  Qed.

  Lemma step_mirrors_done l d c d' lost : (forall s, mirrors l d s) -> d_step o_size o_align d c = Done (d', lost) -> forall s, mirrors (l ++ [c]) d' s.
  Proof.
    intros M E s'. destruct c as [s v|s op]; cbn [d_step] in E.
    - unfold d_insert, buf_from in E. destruct (validate_ty P (tyof s)) as [[]| | |]; cbn [obind] in E; [|discriminate..].
      pose proof (hget_hput_same inst_eqb eqb_ok d s (DVal (Buf (tyof s) v))) as H1.
      pose proof (hget_hput_other inst_eqb eqb_ok d s (DVal (Buf (tyof s) v))) as H2.
      destruct (hput _ _ _ _) as [d1 old]. cbn [fst] in *. injection E as <- _.
      destruct (inst_dec s s') as [<-|N]; [|apply (mirrors_other l d); [exact N|apply H2; congruence|apply M]].
      unfold mirrors. rewrite H1. split; [|split].
      + intros H. apply Forall_app in H as [_ H]. inversion H; subst. cbn in *. congruence.
      + intros l1 v0 l2 El Hf. apply split_last in El as [(-> & Ec & ->)|(l2' & -> & ->)].
        * apply insert_inj in Ec. subst v0. exists v. split; [constructor|reflexivity].
        * exfalso. apply (Hf v). apply in_or_app. right. left. reflexivity.
      + intros [_ Hn]. exfalso. apply (Hn v). apply in_or_app. right. left. reflexivity.
    - unfold d_patch in E. destruct (three l s) as [H0|[H0|(l1 & v & l2 & El & Hf)]].
      + destruct (M s) as (A & _). rewrite (A H0) in E. destruct (write_to op _) as [w| | |]; cbn [obind] in E; [|discriminate..].
        destruct (validate _ _) as [[]| | |]; cbn [obind] in E; [|discriminate..]. injection E as <- _.
        destruct (inst_dec s s') as [<-|N];
          [|apply (mirrors_other l d); [exact N|rewrite (hget_hput_other inst_eqb eqb_ok) by congruence; reflexivity|apply M]].
        unfold mirrors. rewrite (hget_hput_same inst_eqb eqb_ok). split; [|split].
        * intros H. apply Forall_app in H as [_ H]. inversion H; subst. cbn in *. congruence.
        * intros l1 v l2 El Hf. exfalso. apply split_last in El as [(_ & Ec & _)|(l2' & _ & ->)]; [discriminate|].
          apply Forall_app in H0 as [_ H0]. inversion H0; subst. cbn in *. congruence.
        * intros _. exists op. reflexivity.
      + exfalso. destruct (M s) as (_ & _ & C). destruct (C H0) as (op' & Eh). rewrite Eh in E.
        cbn [d_cast] in E. destruct (validate_ty P (tyof s)); discriminate.
      + destruct (M s) as (_ & B & _). destruct (B l1 v l2 El Hf) as (v' & Hp & Hh). rewrite Hh in E. cbn [d_cast] in E. unfold buf_ref in E.
        destruct (validate_ty P (tyof s)) as [[]| | |]; cbn [obind] in E; [|discriminate..]. rewrite cast_val_same in E. cbn [obind] in E.
        destruct (write_to op v') as [w| | |] eqn:Ew; cbn [obind] in E; [|discriminate..]. injection E as <- _.
        destruct (inst_dec s s') as [<-|N];
          [|apply (mirrors_other l d); [exact N|rewrite (hget_hset_other inst_eqb eqb_ok) by congruence; reflexivity|apply M]].
        unfold mirrors. rewrite (hget_hset_same inst_eqb d s _ _ Hh). split; [|split].
        * intros H. apply Forall_app in H as [_ H]. inversion H; subst. cbn in *. congruence.
        * intros l1' v0 l2' El' Hf'. apply split_last in El' as [(_ & Ec & _)|(l2'' & -> & El')]; [discriminate|].
          destruct (B l1' v0 l2'' El') as (w' & Hp' & Hh').
          { intros x Hx. apply (Hf' x). apply in_or_app. left. exact Hx. }
          rewrite Hh in Hh'. assert (Hb : Buf (tyof s) v' = Buf (tyof s) w') by congruence. clear Hh'.
          apply (f_equal (cast_val P (tyof s))) in Hb. rewrite !cast_val_same in Hb. injection Hb as <-.
          exists w. split; [|reflexivity].
          eapply patched_app; [exact Hp'|]. eapply patched_mine; [exact Ew|constructor].
        * intros [_ Hn]. exfalso. apply (Hn v). rewrite El. rewrite <- app_assoc. apply in_or_app. right. left. reflexivity.
  Qed.

  Lemma mirrors_nil s : mirrors [] [] s.
  Proof. split; [reflexivity|split; [intros [|? ?] ? ? E; discriminate|intros [(? & []) _]]]. Qed.
  Definition astray (l : list (dcall P)) : Prop := exists l1 s op l2, l = l1 ++ DPatch s op :: l2 /\ orphaned l1 s.
  Lemma astray_snoc l c : astray (l ++ [c]) <-> astray l \/ exists s op, c = DPatch s op /\ orphaned l s.
  Proof.
    split.
    - intros (l1 & s & op & l2 & E & O). apply split_last in E as [(-> & -> & ->)|(l2' & -> & ->)].
      + right. exists s, op. auto.
      + left. exists l1, s, op, l2'. auto.
    - intros [(l1 & s & op & l2 & -> & O)|(s & op & -> & O)].
      + exists l1, s, op, (l2 ++ [c]). split; [rewrite <- app_assoc; reflexivity|exact O].
      + exists l, s, op, []. auto.
  Qed.
  Lemma run_mirrors l : Forall (fit_call o_size o_align) l ->
    (d_run o_size o_align [] l = UB /\ astray l) \/
    (~ astray l /\ exists d lost, d_run o_size o_align [] l = Done (d, lost) /\ forall s, mirrors l d s).
  Proof.
    induction l as [|c l IH] using rev_ind; intros HF.
    - right. split; [intros ([|? ?] & s & op & l2 & E & _); discriminate|]. exists [], []. split; [reflexivity|apply mirrors_nil].
    - apply Forall_app in HF as [HF Hc]. inversion Hc; subst. rewrite d_run_app.
      destruct (IH HF) as [[-> A]|(A & d & lost & -> & M)]; cbn [obind fst snd].
      + left. split; [reflexivity|]. apply astray_snoc. left. exact A.
      + cbn [d_run]. destruct (step_mirrors l d c M H1) as [(s & op & Ec & O & ->)|(N & d' & lost' & -> & M')]; cbn [obind fst snd].
        * left. split; [reflexivity|]. apply astray_snoc. right. exists s, op. auto.
        * right. split; [intros H; apply astray_snoc in H as [H|(s & op & Ec & O)]; [contradiction|apply (N s op Ec O)]|].
          eexists _, _. split; [reflexivity|exact M'].
  Qed.

  (** Every run that returns, whatever the calls. *)
  Lemma done_mirrors l : forall d lost, d_run o_size o_align [] l = Done (d, lost) -> forall s, mirrors l d s.
  Proof.
    induction l as [|c l IH] using rev_ind; intros d' lost' E.
    - injection E as <- <-. apply mirrors_nil.
    - rewrite d_run_app in E. destruct (d_run o_size o_align [] l) as [[d lost]| | |] eqn:E1; cbn [obind fst snd] in E; [|discriminate..].
      specialize (IH d lost eq_refl). cbn [d_run] in E.
      destruct (d_step o_size o_align d c) as [[d1 x]| | |] eqn:E2; cbn [obind fst snd] in E; [|discriminate..].
      injection E as -> _. apply (step_mirrors_done l d c d' x IH E2).
  Qed.

  Lemma touched_iff l d s : mirrors l d s -> hget inst_eqb d s <> None -> exists c, In c l /\ call_stat c = s.
  Proof.
    intros (A & _) H. destruct (three l s) as [H0|[[(op & Ho) _]|(l1 & v & l2 & -> & _)]].
    - exfalso. apply H, A, H0.
    - exists (DPatch s op). auto.
    - exists (DInsert s v). split; [apply in_or_app; right; left; reflexivity|reflexivity].
  Qed.
  Lemma drop_two d : (forall s b, In (s, b) d -> fits s /\ ((exists v, b = DVal (Buf (tyof s) v)) \/ exists op, b = DOp (tyof s) op)) ->
    (d_drop d = UB /\ exists s op, In (s, DOp (tyof s) op) d) \/
    ((forall s op, ~ In (s, DOp (tyof s) op) d) /\ exists r, d_drop d = Done r /\ map DVal r = map snd d).
  Proof.
    induction d as [|[s b] d IH]; intros H.
    - right. split; [intros s op []|exists []; split; reflexivity].
    - destruct (H s b (or_introl eq_refl)) as (F & C). unfold fits in F. cbn [d_drop].
      destruct C as [(v & ->)|(op & ->)]; cbn [d_cast].
      + unfold buf_ref. rewrite F. cbn [obind]. rewrite cast_val_same. cbn [obind].
        destruct IH as [[-> (s' & op & Hi)]|(N & r & -> & E)]; [intros s' b' Hi; apply H; right; exact Hi| |].
        * left. split; [reflexivity|]. exists s', op. right. exact Hi.
        * right. split; [intros s' op [E'|Hi]; [congruence|apply (N s' op Hi)]|]. cbn [obind]. eexists. split; [reflexivity|].
          cbn. rewrite E. reflexivity.
      + rewrite F. left. split; [reflexivity|]. exists s, op. left. reflexivity.
  Qed.
End L.

Lemma C23_ub_iff_proof : forall (P : Prog) (o_size o_align : vty P -> Z) (l : list (dcall P)),
  distinct_vtables P -> Forall (fit_call o_size o_align) l ->
  (d_run o_size o_align [] l = UB <-> exists l1 s op l2, l = l1 ++ DPatch s op :: l2 /\ orphaned l1 s) /\
  (d_run o_size o_align [] l <> UB -> exists d lost, d_run o_size o_align [] l = Done (d, lost)).
Proof.
  intros P o_size o_align l Hd HF. destruct (run_mirrors o_size o_align Hd l HF) as [[E A]|(A & d & lost & E & _)]; rewrite E.
  - split; [split; [intros _; exact A|reflexivity]|intros H; congruence].
  - split; [split; [discriminate|intros H; contradiction]|]. intros _. exists d, lost. reflexivity.
Qed.

Lemma C23_any_history_proof : forall (P : Prog) (o_size o_align : vty P -> Z) (l : list (dcall P)) (d : defaults P) (lost : list (dbuf P)) (s : inst P),
  distinct_vtables P -> fits s -> d_run o_size o_align [] l = Done (d, lost) ->
  (Forall (fun c => call_stat c <> s) l -> d_get d s = Done (sv_default (VT P (vt_value P (si_ty s))))) /\
  (forall l1 v l2, l = l1 ++ DInsert s v :: l2 -> (forall w, ~ In (DInsert s w) l2) -> exists v', patched s l2 v v' /\ d_get d s = Done v') /\
  (d_get d s = UB <-> orphaned l s) /\ (d_get_dyn d s = UB <-> orphaned l s).
Proof.
  intros P o_size o_align l d lost s Hd F E. pose proof (done_mirrors o_size o_align Hd l d lost E) as M. destruct (M s) as (A & B & C). unfold d_get, d_get_dyn, vt_default, buf_from. unfold fits in F. split; [|split].
  - intros H. rewrite (A H). reflexivity.
  - intros l1 v l2 El Hf. destruct (B l1 v l2 El Hf) as (v' & Hp & ->). exists v'. split; [exact Hp|]. cbn [d_cast]. unfold buf_ref. rewrite F. cbn [obind]. apply cast_val_same.
  - destruct (three Hd l s) as [H0|[H0|(l1 & v & l2 & El & Hf)]].
    + assert (N : ~ orphaned l s) by (intros [(op & Ho) _]; rewrite Forall_forall in H0; apply (H0 _ Ho); reflexivity).
      rewrite (A H0). cbn [obind]. rewrite F. cbn [obind]. split; (split; [discriminate|intros O; contradiction]).
    + destruct (C H0) as (op & ->). cbn [d_cast]. rewrite F. cbn [obind]. split; (split; [intros _; exact H0|reflexivity]).
    + assert (N : ~ orphaned l s) by (intros [_ Hn]; apply (Hn v); rewrite El; apply in_or_app; right; left; reflexivity).
      destruct (B l1 v l2 El Hf) as (v' & Hp & ->). cbn [d_cast]. unfold buf_ref. rewrite F. cbn [obind]. rewrite cast_val_same. cbn [obind].
      split; (split; [discriminate|intros O; contradiction]).
Qed.

Lemma C24_defaults_drop_iff_proof : forall (P : Prog) (o_size o_align : vty P -> Z) (l : list (dcall P)) (d : defaults P) (lost : list (dbuf P)),
  distinct_vtables P -> Forall (fun c => fits (call_stat c)) l -> d_run o_size o_align [] l = Done (d, lost) ->
  (d_drop d = UB <-> exists s, orphaned l s) /\
  ((forall s, ~ orphaned l s) -> exists dropped, d_drop d = Done dropped /\ map DVal dropped = map snd d).
Proof.
  intros P o_size o_align l d lost Hd HF E. pose proof (done_mirrors o_size o_align Hd l d lost E) as M.
  assert (G : forall s b, In (s, b) d -> hget inst_eqb d s = Some b).
  { intros s b Hi. apply (hget_nodup inst_eqb (inst_eqb_ok P Hd)); [|exact Hi]. apply (run_nodup o_size o_align Hd l [] d lost); [constructor|exact E]. }
  destruct (drop_two d) as [[Ed (s & op & Hi)]|(N & r & Ed & Em)].
  - intros s b Hi. apply G in Hi. destruct (touched_iff Hd l d s (M s)) as (c & Hc & <-); [congruence|].
    split; [rewrite Forall_forall in HF; apply (HF c Hc)|]. destruct (M (call_stat c)) as (A & B & C).
    destruct (three Hd l (call_stat c)) as [H0|[H0|(l1 & v & l2 & El & Hf)]].
    + rewrite (A H0) in Hi. discriminate.
    + destruct (C H0) as (op & Ho). right. exists op. congruence.
    + destruct (B l1 v l2 El Hf) as (v' & _ & Ho). left. exists v'. congruence.
  - rewrite Ed. apply G in Hi. assert (O : orphaned l s).
    { destruct (M s) as (A & B & _). destruct (three Hd l s) as [H0|[H0|(l1 & v & l2 & El & Hf)]]; [|exact H0|].
      - rewrite (A H0) in Hi. discriminate.
      - destruct (B l1 v l2 El Hf) as (v' & _ & Ho). congruence. }
    split; [split; [intros _; exists s; exact O|reflexivity]|]. intros H. exfalso. apply (H s O).
  - rewrite Ed. split; [|intros _; exists r; auto]. split; [discriminate|]. intros (s & O). exfalso.
    destruct (M s) as (_ & _ & C). destruct (C O) as (op & Ho). apply (hget_in inst_eqb (inst_eqb_ok P Hd)) in Ho. apply (N s op Ho).
Qed.

Lemma C23_query_orphaned_proof : forall (P : Prog) (Q : QFlag) (o_size o_align : vty P -> Z) (l : list (dcall P)) (d : defaults P) (lost : list (dbuf P)) (s : inst P) (j : joined P Q) n e x c,
  distinct_vtables P -> fits s -> d_run o_size o_align [] l = Done (d, lost) -> orphaned l s ->
  w_defaults (j_world j) = Some d -> w_entities (j_world j) e <> None -> (j_cached j = true -> hget key_eqb c (e, x, s) = None) ->
  fst (run (client j (S n) (p_query e x s)) c) = UB /\
  forall e', w_entities (j_world j) e' <> None -> fst (run (client j (S n) (p_relation e e' x s)) c) = UB.
Proof.
  intros P Q o_size o_align l d lost s j n e x c Hd F E O Ed He Hc.
  destruct (C23_any_history_proof P o_size o_align l d lost s Hd F E) as (_ & _ & _ & Hg). apply Hg in O. clear Hg.
  assert (Es : start_value (j_world j) s = UB). { unfold start_value. rewrite Ed, O. reflexivity. }
  unfold fits in F.
  split.
  - unfold client, p_query. cbn [interp check]. rewrite F. cbn [a_outcome abind level erased]. unfold query_stat_erased.
    destruct (w_entities (j_world j) e) as [ch|]; [|congruence]. rewrite Es. cbn [a_outcome abind].
    destruct (j_cached j); [|reflexivity]. cbn [abind run]. rewrite (Hc eq_refl). reflexivity.
  - intros e' He'. unfold client, p_relation. cbn [interp check]. rewrite F. cbn [a_outcome abind level erased]. unfold query_relation_erased.
    destruct (w_entities (j_world j) e) as [ch|]; [|congruence]. destruct (w_entities (j_world j) e') as [ch'|]; [|congruence].
    rewrite Es. reflexivity.
Qed.
