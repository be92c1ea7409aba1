From Coq Require Import ZArith List Bool Permutation.
From Verif Require Import M_Outcome M_Value M_Types M_Stat M_StatMap M_HashMap M_Pair M_Defaults S_StatMap S_Defaults S_Demo S_DemoDefaults L_StatMap3 L_Demo L_HashMap L_Defaults.
Import ListNotations.
Local Open Scope Z_scope.

Lemma C23_defaults_map_proof : forall (P : Prog) (o_size o_align : vty P -> Z) (l : list (dcall P)) (d : defaults P) (lost : list (dbuf P)),
  distinct_vtables P -> inserted_first l ->
  d_run o_size o_align [] l = Done (d, lost) ->
  exists sp, dspec_run no_defaults l sp /\
  forall s, fits s ->
    d_get d s = Done (or_default s (sp s)) /\
    exists lost', d_get_dyn d s = Done (Buf (vt_value P (si_ty s)) (or_default s (sp s)), lost').
Proof. intros P o_size o_align l d lost Hd. exact (defaults_history o_size o_align Hd l d lost). Qed.

Lemma C23_untouched_default_proof : forall (P : Prog) (l : list (dcall P)) (sp : dmap P) (s : inst P),
  dspec_run no_defaults l sp -> Forall (fun c => call_stat c <> s) l -> sp s = None.
Proof.
  intros P l sp s H. assert (G : Forall (fun c => call_stat c <> s) l -> sp s = no_defaults s).
  { induction H as [sp0|sp0 c sp1 l sp2 H1 H2 IH]; intros Hf; [reflexivity|]. inversion Hf; subst. rewrite IH by assumption.
    destruct c as [s0 v|s0 op]; cbn in *; [destruct H1 as [_ H1]|destruct H1 as (v' & _ & _ & H1)]; apply H1; congruence. }
  exact G.
Qed.

Lemma C23_no_ub_proof : forall (P : Prog) (o_size o_align : vty P -> Z) (l : list (dcall P)),
  distinct_vtables P -> inserted_first l -> Forall sound_call l ->
  d_run o_size o_align [] l <> UB.
Proof. intros P o_size o_align l Hd Hi Hs. exact (run_no_ub o_size o_align Hd l [] dtyped_nil (ready_nil l Hi) Hs). Qed.

Lemma C23_total_proof : forall (P : Prog) (o_size o_align : vty P -> Z) (l : list (dcall P)),
  distinct_vtables P -> inserted_first l -> Forall total_call l ->
  exists d lost, d_run o_size o_align [] l = Done (d, lost) /\ exists dropped, d_drop d = Done dropped.
Proof.
  intros P o_size o_align l Hd Hi Ht.
  destruct (run_total o_size o_align Hd l [] dtyped_nil ltac:(intros s b H; discriminate) (ready_nil l Hi) Ht) as ([d lost] & E & Hf).
  destruct (run_typed o_size o_align Hd l [] d lost dtyped_nil (ready_nil l Hi) E) as [Hty _].
  exists d, lost. split; [exact E|]. destruct (drop_all_once Hd d (run_nodup o_size o_align Hd l [] d lost ltac:(constructor) E) Hty Hf) as (r & Er & _).
  exists r. exact Er.
Qed.

Lemma C23_patch_unregistered_proof : forall (P : Prog) (o_size o_align : vty P -> Z) (d : defaults P) (s : inst P) (op : stat_op (VT P (vt_value P (si_ty s)))) v',
  distinct_vtables P -> hget inst_eqb d s = None -> fits s ->
  write_to op (sv_default (VT P (vt_value P (si_ty s)))) = Done v' ->
  validate (o_size (vt_value P (si_ty s))) (o_align (vt_value P (si_ty s))) = Done tt ->
  exists d', d_patch o_size o_align d s op = Done d' /\
    d_get d' s = UB /\ d_get_dyn d' s = UB /\ forall op', d_patch o_size o_align d' s op' = UB.
Proof. intros P o_size o_align d s op v' Hd. exact (patch_absent o_size o_align Hd d s op v'). Qed.

Lemma C23_defaults_map_refuted_proof :
  exists (l : list (dcall demo)), Forall total_call l /\ Forall (fun c => fits (call_stat c)) l /\
    defaults_ok l = Done 0%nat /\ dget_hp (demo_defaults l) = UB /\ ddrop_count (demo_defaults l) = UB.
Proof.
  exists [dmin_hp (-5)]. split; [|split; [|vm_compute; repeat split]].
  - repeat constructor. cbn. intros v. eexists. reflexivity.
  - repeat constructor.
Qed.

Lemma C24_defaults_conserved_proof : forall (P : Prog) (o_size o_align : vty P -> Z) (l : list (dcall P)) (d : defaults P) (lost : list (dbuf P)),
  Forall is_insert l -> d_run o_size o_align [] l = Done (d, lost) ->
  Permutation (inserted l) (map snd d ++ lost).
Proof. intros P o_size o_align l d lost Hi E. exact (run_conserved o_size o_align l [] d lost Hi E). Qed.

Lemma C24_defaults_lost_iff_proof : forall (P : Prog) (o_size o_align : vty P -> Z) (l : list (dcall P)) (d : defaults P) (lost : list (dbuf P)),
  distinct_vtables P -> d_run o_size o_align [] l = Done (d, lost) ->
  (lost = [] <-> forall l1 s v l2, l = l1 ++ DInsert s v :: l2 -> Forall (fun c => call_stat c <> s) l1).
Proof.
  intros P o_size o_align l d lost Hd E. rewrite (run_lost o_size o_align Hd l [] d lost E). split.
  - intros H l1 s v l2 El. apply (H l1 s v l2 El).
  - intros H l1 s v l2 El. split; [reflexivity|]. apply (H l1 s v l2 El).
Qed.

Lemma C24_defaults_drop_once_proof : forall (P : Prog) (o_size o_align : vty P -> Z) (l : list (dcall P)) (d : defaults P) (lost : list (dbuf P)),
  distinct_vtables P -> inserted_first l -> Forall total_call l ->
  d_run o_size o_align [] l = Done (d, lost) ->
  exists dropped, d_drop d = Done dropped /\ map DVal dropped = map snd d.
Proof.
  intros P o_size o_align l d lost Hd Hi Ht E.
  destruct (run_total o_size o_align Hd l [] dtyped_nil ltac:(intros s b H; discriminate) (ready_nil l Hi) Ht) as (r & E' & Hf).
  rewrite E in E'. injection E' as <-.
  destruct (run_typed o_size o_align Hd l [] d lost dtyped_nil (ready_nil l Hi) E) as [Hty _].
  exact (drop_all_once Hd d (run_nodup o_size o_align Hd l [] d lost ltac:(constructor) E) Hty Hf).
Qed.

Lemma C24_get_dyn_lost_iff_proof : forall (P : Prog) (d : defaults P) (s : inst P) b lost,
  d_get_dyn d s = Done (b, lost) -> (lost = [] <-> hget inst_eqb d s = None).
Proof.
  intros P d s b lost. unfold d_get_dyn. destruct (hget inst_eqb d s) as [x|].
  - destruct (d_cast _ x); cbn [obind]; try discriminate. destruct (buf_from _ _ _); cbn [obind]; try discriminate.
    destruct (vt_default _ _); cbn [obind]; try discriminate. intros H. injection H as <- <-. split; discriminate.
  - cbn [obind]. destruct (vt_default _ _); cbn [obind]; try discriminate. intros H. injection H as <- <-. split; reflexivity.
Qed.

Lemma C24_defaults_refuted_proof :
  exists l, Forall is_insert l /\ defaults_ok l = Done 1%nat /\
    exists l', inserted_first l' /\ defaults_ok l' = Done 0%nat /\ ddyn_hp (demo_defaults l') = Done (num 7, 1%nat).
Proof.
  exists [dput_hp 1; dput_hp 2]. split; [repeat constructor|]. split; [vm_compute; reflexivity|].
  exists [dput_hp 7]. split; [|vm_compute; split; reflexivity].
  intros [|c l1] s op l2 E; cbn in E; [discriminate E|]. injection E as _ E. destruct l1; discriminate E.
Qed.

Lemma C24_into_result_lost_iff_proof : forall (P : Prog) (D : StatTypes P) (p : pair P) (s : sty P) r,
  pair_into_result D p s = Done r -> (pair_into_leaks p s = true <-> r = None).
Proof.
  intros P D p s r. unfold pair_into_result, pair_into_leaks.
  destruct (validate_stat D s); cbn [obind]; try discriminate.
  destruct (vt_addr P (si_ty (p_stat p)) =? vt_addr P s).
  - destruct (buf_into _ _ _); cbn [obind]; try discriminate. intros H. injection H as <-. split; discriminate.
  - intros H. injection H as <-. split; reflexivity.
Qed.
