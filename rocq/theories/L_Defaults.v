From Coq Require Import ZArith List Bool Permutation Lia.
From Verif Require Import M_Outcome M_Value M_Stat M_StatMap M_HashMap M_Defaults S_StatMap S_Defaults L_StatMap3 L_HashMap.
Import ListNotations.

Lemma inst_eqb_ok P : distinct_vtables P -> forall a b : inst P, inst_eqb a b = true <-> a = b.
Proof.
  intros Hd [ta ia] [tb ib]. unfold inst_eqb. cbn. rewrite andb_true_iff, !Z.eqb_eq. split.
  - intros [-> H]. f_equal. apply Hd, H.
  - intros H. injection H as -> ->. split; reflexivity.
Qed.

Section L.
  Context {P : Prog} (o_size o_align : vty P -> Z).
  Hypothesis Hd : distinct_vtables P.
  Notation tyof s := (vt_value P (si_ty s)).
  Let eqb_ok := inst_eqb_ok P Hd.
  Implicit Types d : defaults P.

  Definition dtyped d : Prop := forall s b, hget inst_eqb d s = Some b -> exists v, b = DVal (Buf (tyof s) v).
  Definition dabs d : dmap P := fun s =>
    match hget inst_eqb d s with
    | Some (DVal b) => match cast_val P (tyof s) b with Done v => Some v | _ => None end
    | _ => None
    end.

  Lemma dabs_at d s v : hget inst_eqb d s = Some (DVal (Buf (tyof s) v)) -> dabs d s = Some v.
  Proof. intros H. unfold dabs. rewrite H, cast_val_same. reflexivity. Qed.
  Lemma dabs_none d s : hget inst_eqb d s = None -> dabs d s = None.
  Proof. intros H. unfold dabs. rewrite H. reflexivity. Qed.
  Lemma dabs_eq d d' s : hget inst_eqb d' s = hget inst_eqb d s -> dabs d' s = dabs d s.
  Proof. intros H. unfold dabs. rewrite H. reflexivity. Qed.

  Lemma validate_unit a b : match validate a b with Done _ => True | Panics _ => True | _ => False end.
  Proof. unfold validate. destruct (_ || _); [destruct (_ <? _)%Z|]; exact I. Qed.

  (** One call on a typed table, when a patch finds its stat registered. *)
  Definition ready1 d (c : dcall P) : Prop :=
    match c with DInsert _ _ => True | DPatch s _ => hget inst_eqb d s <> None end.
  Lemma step_typed d c d' lost : dtyped d -> ready1 d c -> d_step o_size o_align d c = Done (d', lost) ->
    dtyped d' /\ dspec_step (dabs d) c (dabs d') /\ hget inst_eqb d' (call_stat c) <> None /\
    (forall s, s <> call_stat c -> hget inst_eqb d' s = hget inst_eqb d s).
  Proof.
    intros Ht Hr. destruct c as [s v|s op]; cbn [d_step call_stat dspec_step ready1] in *.
    - unfold d_insert, buf_from. destruct (validate_ty P (tyof s)); cbn [obind]; try discriminate.
      destruct (hput inst_eqb d s (DVal (Buf (tyof s) v))) as [d1 old] eqn:E. intros H. injection H as <- <-.
      pose proof (hget_hput_same inst_eqb eqb_ok d s (DVal (Buf (tyof s) v))) as H1.
      pose proof (hget_hput_other inst_eqb eqb_ok d s (DVal (Buf (tyof s) v))) as H2.
      rewrite E in H1, H2. cbn in H1, H2. split; [|split; [|split; [congruence|exact H2]]].
      + intros s' b Hb. destruct (eqb_dec inst_eqb eqb_ok s' s) as [-> |Hn].
        * rewrite H1 in Hb. injection Hb as <-. exists v. reflexivity.
        * rewrite H2 in Hb by exact Hn. apply Ht, Hb.
      + split; [apply dabs_at, H1|]. intros s' Hn. apply dabs_eq, H2, Hn.
    - unfold d_patch. destruct (hget inst_eqb d s) as [b|] eqn:Eb; [|contradiction].
      destruct (Ht s b Eb) as [v ->]. cbn [d_cast]. unfold buf_ref.
      destruct (validate_ty P (tyof s)); cbn [obind]; try discriminate.
      rewrite cast_val_same. cbn [obind]. destruct (write_to op v) as [v'| | |] eqn:Ew; cbn [obind]; try discriminate.
      intros H. injection H as <- <-.
      pose proof (hget_hset_same inst_eqb d s (DVal (Buf (tyof s) v')) _ Eb) as H1.
      pose proof (hget_hset_other inst_eqb eqb_ok d s (DVal (Buf (tyof s) v'))) as H2.
      split; [|split; [|split; [congruence|exact H2]]].
      + intros s' b Hb. destruct (eqb_dec inst_eqb eqb_ok s' s) as [-> |Hn].
        * rewrite H1 in Hb. injection Hb as <-. exists v'. reflexivity.
        * rewrite H2 in Hb by exact Hn. apply Ht, Hb.
      + exists v'. split; [rewrite (dabs_at d s v Eb); exact Ew|]. split; [apply dabs_at, H1|].
        intros s' Hn. apply dabs_eq, H2, Hn.
  Qed.
  Lemma step_no_ub d c : dtyped d -> ready1 d c -> sound_call c -> d_step o_size o_align d c <> UB.
  Proof.
    intros Ht Hr Hs. destruct c as [s v|s op]; cbn [d_step ready1 sound_call] in *.
    - unfold d_insert, buf_from, validate_ty. pose proof (validate_unit (v_size P (tyof s)) (v_align P (tyof s))).
      destruct (validate _ _); cbn [obind]; try contradiction; [|discriminate]. destruct (hput _ _ _ _). discriminate.
    - unfold d_patch. destruct (hget inst_eqb d s) as [b|] eqn:Eb; [|contradiction].
      destruct (Ht s b Eb) as [v ->]. cbn [d_cast]. unfold buf_ref, validate_ty.
      pose proof (validate_unit (v_size P (tyof s)) (v_align P (tyof s))).
      destruct (validate _ _); cbn [obind]; try contradiction; [|discriminate].
      rewrite cast_val_same. cbn [obind]. specialize (Hs v). destruct (write_to op v); cbn [obind]; congruence.
  Qed.
  Definition dfits d : Prop := forall s b, hget inst_eqb d s = Some b -> fits s.
  Lemma step_total d c : dtyped d -> dfits d -> ready1 d c -> total_call c ->
    exists r, d_step o_size o_align d c = Done r /\ dfits (fst r).
  Proof.
    intros Ht Hf Hr Hc. destruct c as [s v|s op]; cbn [d_step ready1 total_call] in *.
    - unfold d_insert, buf_from. unfold fits in Hc. rewrite Hc. cbn [obind].
      pose proof (hget_hput_other inst_eqb eqb_ok d s (DVal (Buf (tyof s) v))) as H2.
      destruct (hput _ _ _ _) as [d1 old]. eexists. split; [reflexivity|]. cbn in *.
      intros s' b Hb. destruct (eqb_dec inst_eqb eqb_ok s' s) as [-> |Hn]; [exact Hc|]. rewrite H2 in Hb by exact Hn. apply (Hf _ _ Hb).
    - unfold d_patch. destruct (hget inst_eqb d s) as [b|] eqn:Eb; [|contradiction].
      destruct (Ht s b Eb) as [v ->]. cbn [d_cast]. unfold buf_ref.
      pose proof (Hf _ _ Eb) as Hfit. unfold fits in Hfit. rewrite Hfit. cbn [obind].
      rewrite cast_val_same. cbn [obind]. destruct (Hc v) as [v' ->]. cbn [obind].
      eexists. split; [reflexivity|]. cbn. intros s' b' Hb.
      destruct (eqb_dec inst_eqb eqb_ok s' s) as [-> |Hn]; [exact Hfit|].
      rewrite (hget_hset_other inst_eqb eqb_ok) in Hb by exact Hn. apply (Hf _ _ Hb).
  Qed.

  Definition ready d (l : list (dcall P)) : Prop :=
    forall l1 s op l2, l = l1 ++ DPatch s op :: l2 ->
    hget inst_eqb d s <> None \/ exists c, In c l1 /\ is_insert c /\ call_stat c = s.
  Lemma ready_hd d c l : ready d (c :: l) -> ready1 d c.
  Proof.
    intros H. destruct c as [s v|s op]; cbn; [exact I|].
    destruct (H [] s op l eq_refl) as [H1|(c & [] & _)]. exact H1.
  Qed.
  Lemma ready_tl d d' c l : ready d (c :: l) -> hget inst_eqb d' (call_stat c) <> None ->
    (forall s, s <> call_stat c -> hget inst_eqb d' s = hget inst_eqb d s) -> ready d' l.
  Proof.
    intros H Hc Ho l1 s op l2 ->. destruct (eqb_dec inst_eqb eqb_ok s (call_stat c)) as [-> |Hn]; [left; exact Hc|].
    destruct (H (c :: l1) s op l2 eq_refl) as [H1|(c' & [Hin|Hin] & Hi & Hs)].
    - left. rewrite Ho by exact Hn. exact H1.
    - subst. congruence.
    - right. exists c'. repeat split; assumption.
  Qed.
  Lemma run_typed l : forall d d' lost, dtyped d -> ready d l -> d_run o_size o_align d l = Done (d', lost) ->
    dtyped d' /\ dspec_run (dabs d) l (dabs d').
  Proof.
    induction l as [|c l IH]; intros d d' lost Ht Hr; cbn [d_run].
    - intros E. injection E as <- <-. split; [exact Ht|constructor].
    - destruct (d_step o_size o_align d c) as [[d1 l1]| | |] eqn:E1; cbn [obind]; try discriminate. cbn [fst snd].
      destruct (d_run o_size o_align d1 l) as [[d2 l2]| | |] eqn:E2; cbn [obind]; try discriminate.
      intros E. injection E as <- <-. cbn [fst].
      destruct (step_typed d c d1 l1 Ht (ready_hd d c l Hr) E1) as (T1 & S1 & Hc & Ho).
      destruct (IH d1 d2 l2 T1 (ready_tl d d1 c l Hr Hc Ho) E2) as [T2 S2].
      split; [exact T2|]. econstructor; eassumption.
  Qed.
  Lemma run_no_ub l : forall d, dtyped d -> ready d l -> Forall sound_call l -> d_run o_size o_align d l <> UB.
  Proof.
    induction l as [|c l IH]; intros d Ht Hr Hs; cbn [d_run]; [discriminate|]. inversion Hs; subst.
    pose proof (step_no_ub d c Ht (ready_hd d c l Hr) H1).
    destruct (d_step o_size o_align d c) as [[d1 l1]| | |] eqn:E1; cbn [obind]; try congruence. cbn [fst snd].
    destruct (step_typed d c d1 l1 Ht (ready_hd d c l Hr) E1) as (T1 & S1 & Hc & Ho).
    specialize (IH d1 T1 (ready_tl d d1 c l Hr Hc Ho) H2).
    destruct (d_run o_size o_align d1 l) as [[d2 l2]| | |]; cbn [obind]; congruence.
  Qed.
  Lemma run_total l : forall d, dtyped d -> dfits d -> ready d l -> Forall total_call l ->
    exists r, d_run o_size o_align d l = Done r /\ dfits (fst r).
  Proof.
    induction l as [|c l IH]; intros d Ht Hf Hr Hs; cbn [d_run]; [eexists; split; [reflexivity|exact Hf]|]. inversion Hs; subst.
    destruct (step_total d c Ht Hf (ready_hd d c l Hr) H1) as ([d1 l1] & E1 & F1). rewrite E1. cbn [obind fst snd].
    destruct (step_typed d c d1 l1 Ht (ready_hd d c l Hr) E1) as (T1 & S1 & Hc & Ho).
    destruct (IH d1 T1 F1 (ready_tl d d1 c l Hr Hc Ho) H2) as ([d2 l2] & E2 & F2). rewrite E2. cbn [obind fst snd].
    eexists. split; [reflexivity|exact F2].
  Qed.

  Lemma dtyped_nil : dtyped [].
  Proof. intros s b H. discriminate. Qed.
  Lemma ready_nil l : inserted_first l -> ready [] l.
  Proof. intros H l1 s op l2 E. right. apply (H l1 s op l2 E). Qed.

  Lemma get_spec d s : dtyped d -> fits s -> d_get d s = Done (or_default s (dabs d s)).
  Proof.
    intros Ht Hf. unfold d_get. destruct (hget inst_eqb d s) as [b|] eqn:E.
    - destruct (Ht s b E) as [v ->]. cbn [d_cast]. unfold buf_ref. unfold fits in Hf. rewrite Hf. cbn [obind].
      rewrite cast_val_same, (dabs_at d s v E). reflexivity.
    - rewrite (dabs_none d s E). reflexivity.
  Qed.
  Lemma get_dyn_spec d s : dtyped d -> fits s ->
    d_get_dyn d s = Done (Buf (tyof s) (or_default s (dabs d s)),
      match dabs d s with Some _ => [Buf (tyof s) (sv_default (VT P (tyof s)))] | None => [] end).
  Proof.
    intros Ht Hf. unfold d_get_dyn, vt_default, buf_from. unfold fits in Hf. rewrite Hf. cbn [obind].
    destruct (hget inst_eqb d s) as [b|] eqn:E.
    - destruct (Ht s b E) as [v ->]. cbn [d_cast]. unfold buf_ref. rewrite Hf. cbn [obind].
      rewrite cast_val_same, (dabs_at d s v E). reflexivity.
    - rewrite (dabs_none d s E). reflexivity.
  Qed.

  (** The history theorem. *)
  Lemma defaults_history l d lost : inserted_first l -> d_run o_size o_align [] l = Done (d, lost) ->
    exists sp, dspec_run no_defaults l sp /\
    forall s, fits s -> d_get d s = Done (or_default s (sp s)) /\
      exists lost', d_get_dyn d s = Done (Buf (tyof s) (or_default s (sp s)), lost').
  Proof.
    intros Hi E. destruct (run_typed l [] d lost dtyped_nil (ready_nil l Hi) E) as [Ht Hs].
    exists (dabs d). split; [exact Hs|]. intros s Hf. split; [apply get_spec; assumption|].
    eexists. apply get_dyn_spec; assumption.
  Qed.

  (** Patching an unregistered stat. *)
  Lemma patch_absent d s op v' : hget inst_eqb d s = None -> fits s ->
    write_to op (sv_default (VT P (tyof s))) = Done v' ->
    validate (o_size (tyof s)) (o_align (tyof s)) = Done tt ->
    exists d', d_patch o_size o_align d s op = Done d' /\ d_get d' s = UB /\ d_get_dyn d' s = UB /\
      forall op', d_patch o_size o_align d' s op' = UB.
  Proof.
    intros En Hf Ew Hv. eexists. unfold d_patch at 1. rewrite En, Ew, Hv. cbn [obind].
    split; [reflexivity|]. unfold d_get, d_get_dyn, d_patch. rewrite (hget_hput_same inst_eqb eqb_ok).
    cbn [d_cast]. unfold fits in Hf. rewrite Hf. cbn [obind]. repeat split.
  Qed.

  (** Ownership. *)
  Lemma step_lost d c d' lost : d_step o_size o_align d c = Done (d', lost) ->
    lost = match c with DInsert s _ => match hget inst_eqb d s with Some b => [b] | None => [] end | DPatch _ _ => [] end /\
    (forall s, hget inst_eqb d' s <> None <-> s = call_stat c \/ hget inst_eqb d s <> None).
  Proof.
    destruct c as [s v|s op]; cbn [d_step call_stat].
    - unfold d_insert, buf_from. destruct (validate_ty P (tyof s)); cbn [obind]; try discriminate.
      pose proof (hput_old inst_eqb d s (DVal (Buf (tyof s) v))) as Ho.
      pose proof (hget_hput_same inst_eqb eqb_ok d s (DVal (Buf (tyof s) v))) as H1.
      pose proof (hget_hput_other inst_eqb eqb_ok d s (DVal (Buf (tyof s) v))) as H2.
      destruct (hput _ _ _ _) as [d1 old]. cbn in Ho, H1, H2. intros H. injection H as <- <-. subst old.
      split; [reflexivity|]. intros s'. destruct (eqb_dec inst_eqb eqb_ok s' s) as [-> |Hn].
      + rewrite H1. split; [left; reflexivity|discriminate].
      + rewrite H2 by exact Hn. split; [right; assumption|intros [?|?]; [contradiction|assumption]].
    - unfold d_patch. destruct (hget inst_eqb d s) as [b|] eqn:Eb.
      + destruct (d_cast (tyof s) b) as [v| | |]; cbn [obind]; try discriminate.
        destruct (write_to op v) as [v'| | |]; cbn [obind]; try discriminate.
        intros H. injection H as <- <-. split; [reflexivity|]. intros s'. destruct (eqb_dec inst_eqb eqb_ok s' s) as [-> |Hn].
        * rewrite (hget_hset_same inst_eqb d s _ _ Eb). split; [left; reflexivity|discriminate].
        * rewrite (hget_hset_other inst_eqb eqb_ok) by exact Hn. split; [right; assumption|intros [?|?]; [contradiction|assumption]].
      + destruct (write_to op _) as [v'| | |]; cbn [obind]; try discriminate.
        destruct (validate _ _); cbn [obind]; try discriminate.
        intros H. injection H as <- <-. split; [reflexivity|]. intros s'. destruct (eqb_dec inst_eqb eqb_ok s' s) as [-> |Hn].
        * rewrite (hget_hput_same inst_eqb eqb_ok). split; [left; reflexivity|discriminate].
        * rewrite (hget_hput_other inst_eqb eqb_ok) by exact Hn. split; [right; assumption|intros [?|?]; [contradiction|assumption]].
  Qed.
  Lemma run_lost l : forall d d' lost, d_run o_size o_align d l = Done (d', lost) ->
    (lost = [] <-> forall l1 s v l2, l = l1 ++ DInsert s v :: l2 ->
      hget inst_eqb d s = None /\ Forall (fun c => call_stat c <> s) l1).
  Proof.
    induction l as [|c l IH]; intros d d' lost; cbn [d_run].
    - intros E. injection E as <- <-. split; [|reflexivity]. intros _ [|? ?] s v l2 E; discriminate.
    - destruct (d_step o_size o_align d c) as [[d1 lost1]| | |] eqn:E1; cbn [obind]; try discriminate. cbn [fst snd].
      destruct (d_run o_size o_align d1 l) as [[d2 lost2]| | |] eqn:E2; cbn [obind]; try discriminate.
      intros E. injection E as <- <-. cbn [snd].
      destruct (step_lost d c d1 lost1 E1) as [-> Hk]. specialize (IH d1 d2 lost2 E2).
      split.
      + intros H. apply app_eq_nil in H as [Ha Hb]. pose proof (proj1 IH Hb) as Hb2. clear Hb; rename Hb2 into Hb. intros l1 s v l2 El.
        destruct l1 as [|c1 l1]; cbn in El; injection El as -> ->.
        * destruct (hget inst_eqb d s); [discriminate|]. split; [reflexivity|constructor].
        * destruct (Hb l1 s v l2 eq_refl) as [Hn Hf].
          assert (Hns : ~ (s = call_stat c1 \/ hget inst_eqb d s <> None)) by (rewrite <- Hk; congruence).
          split; [destruct (hget inst_eqb d s); [exfalso; apply Hns; right; discriminate|reflexivity]|].
          constructor; [|exact Hf]. intros Heq. apply Hns. left. congruence.
      + intros H. assert (Ha : match c with DInsert s _ => match hget inst_eqb d s with Some b => [b] | None => [] end | DPatch _ _ => [] end = []).
        { destruct c as [s v|s op]; [|reflexivity]. destruct (H [] s v l eq_refl) as [-> _]. reflexivity. }
        rewrite Ha. cbn. apply IH. intros l1 s v l2 ->. destruct (H (c :: l1) s v l2 eq_refl) as [Hn Hf]. inversion Hf; subst.
        split; [|assumption]. specialize (Hk s). destruct (hget inst_eqb d1 s); [|reflexivity].
        exfalso. destruct Hk as [Hk _]. destruct Hk as [Hk|Hk]; [discriminate|congruence|congruence].
  Qed.
  Lemma run_conserved l : forall d d' lost, Forall is_insert l -> d_run o_size o_align d l = Done (d', lost) ->
    Permutation (map snd d ++ inserted l) (map snd d' ++ lost).
  Proof.
    induction l as [|c l IH]; intros d d' lost Hi; cbn [d_run].
    - intros E. injection E as <- <-. reflexivity.
    - inversion Hi; subst. destruct c as [s v|s op]; [|contradiction]. cbn [d_step inserted flat_map app].
      unfold d_insert, buf_from. destruct (validate_ty P (tyof s)); cbn [obind]; try discriminate.
      pose proof (hput_perm inst_eqb d s (DVal (Buf (tyof s) v))) as Hp.
      destruct (hput _ _ _ _) as [d1 old]. cbn [fst snd obind] in *.
      destruct (d_run o_size o_align d1 l) as [[d2 lost2]| | |] eqn:E2; cbn [obind]; try discriminate.
      intros E. injection E as <- <-. cbn [fst snd]. specialize (IH d1 d2 lost2 H2 E2).
      rewrite <- Permutation_middle. fold (inserted l).
      change (DVal (Buf (tyof s) v) :: map snd d ++ inserted l) with ((DVal (Buf (tyof s) v) :: map snd d) ++ inserted l).
      rewrite Hp. unfold olist. set (x := match old with Some b => [b] | None => [] end) in *.
      rewrite <- app_assoc, (Permutation_app_comm x), app_assoc, IH, <- app_assoc.
      apply Permutation_app_head, Permutation_app_comm.
  Qed.
  Lemma drop_all_once d : NoDup (map fst d) -> dtyped d -> dfits d ->
    exists r, d_drop d = Done r /\ map DVal r = map snd d.
  Proof.
    induction d as [|[s b] d IH]; intros Hn Ht Hf; [exists []; split; reflexivity|]. inversion Hn; subst.
    assert (Hh : hget inst_eqb ((s, b) :: d) s = Some b) by (cbn; rewrite (eqb_refl inst_eqb eqb_ok); reflexivity).
    destruct (Ht s b Hh) as [v ->]. pose proof (Hf s _ Hh) as Hfit.
    assert (Ho : forall s' b', hget inst_eqb d s' = Some b' -> hget inst_eqb ((s, DVal (Buf (tyof s) v)) :: d) s' = Some b').
    { intros s' b' H. cbn. rewrite (eqb_neq inst_eqb eqb_ok); [exact H|]. intros ->. apply H1.
      apply (hget_in inst_eqb eqb_ok) in H. apply (in_map fst) in H. exact H. }
    destruct IH as (r & E & Em); [assumption| | |].
    - intros s' b' H. apply (Ht s' b'), Ho, H.
    - intros s' b' H. apply (Hf s' b'), Ho, H.
    - cbn [d_drop d_cast]. unfold buf_ref. unfold fits in Hfit. rewrite Hfit. cbn [obind]. rewrite cast_val_same. cbn [obind].
      rewrite E. cbn [obind]. eexists. split; [reflexivity|]. cbn. rewrite Em. reflexivity.
  Qed.
  Lemma run_nodup l : forall d d' lost, NoDup (map fst d) -> d_run o_size o_align d l = Done (d', lost) -> NoDup (map fst d').
  Proof.
    induction l as [|c l IH]; intros d d' lost Hn; cbn [d_run]; [intros E; injection E as <- <-; exact Hn|].
    destruct (d_step o_size o_align d c) as [[d1 lost1]| | |] eqn:E1; cbn [obind]; try discriminate. cbn [fst snd].
    destruct (d_run o_size o_align d1 l) as [[d2 lost2]| | |] eqn:E2; cbn [obind]; try discriminate.
    intros E. injection E as <- <-. apply (IH d1 d2 lost2); [|exact E2].
    destruct c as [s v|s op]; cbn [d_step] in E1.
    - unfold d_insert in E1. destruct (buf_from P (tyof s) v) as [b| | |]; cbn [obind] in E1; try discriminate.
      pose proof (hput_nodup inst_eqb eqb_ok d s (DVal b) Hn) as H. destruct (hput _ _ _ _). injection E1 as <- <-. exact H.
    - unfold d_patch in E1. destruct (hget inst_eqb d s) as [b|].
      + destruct (d_cast (tyof s) b) as [v| | |]; cbn [obind] in E1; try discriminate.
        destruct (write_to op v) as [v'| | |]; cbn [obind] in E1; try discriminate. injection E1 as <- <-.
        rewrite hset_keys. exact Hn.
      + destruct (write_to op _) as [v'| | |]; cbn [obind] in E1; try discriminate.
        destruct (validate _ _); cbn [obind] in E1; try discriminate. injection E1 as <- <-.
        apply (hput_nodup inst_eqb eqb_ok), Hn.
  Qed.
End L.
