(** Printing the table of defaults after any history of registrations. *)
From Coq Require Import ZArith String List Bool.
From Verif Require Import M_Outcome M_Value M_Qualifier M_Search M_Stat M_HashMap M_StatMap M_Pair M_Defaults M_Registry M_Debug S_StatMap S_Pair S_Defaults S_Defaults2 S_Debug L_Outcome L_HashMap L_StatMap L_StatMap2 L_StatMap3 L_Defaults L_Defaults2 L_Debug.
Import ListNotations.
Notation tyof s := (vt_value _ (si_ty s)).


Lemma debug_two (P : Prog) (N : StatNames P) (show : forall t : vty P, val (VT P t) -> outcome string) (d : defaults P) : printable N show ->
  (forall s b, In (s, b) d -> fits s /\ ((exists v, b = DVal (Buf (tyof s) v)) \/ exists op, b = DOp (tyof s) op)) ->
  (defaults_debug N show d = UB /\ exists s op, In (s, DOp (tyof s) op) d) \/
  ((forall s op, ~ In (s, DOp (tyof s) op) d) /\ exists r, defaults_debug N show d = Done r /\ length r = length d).
Proof.
  intros [HN HS]. induction d as [|[s b] d IH]; intros H.
  - right. split; [intros s op []|exists []; split; reflexivity].
  - destruct (H s b (or_introl eq_refl)) as (F & C). unfold fits in F. cbn [defaults_debug]. unfold inst_name.
    destruct (HN (si_ty s) (si_index s)) as (n & ->). cbn [obind].
    destruct C as [(v & ->)|(op & ->)]; cbn [d_cast].
    + unfold buf_ref. rewrite F. cbn [obind]. rewrite cast_val_same. cbn [obind]. destruct (HS _ v) as (x & ->). cbn [obind].
      destruct IH as [[-> (s' & op & Hi)]|(N' & r & -> & E)]; [intros s' b' Hi; apply H; right; exact Hi| |].
      * left. split; [reflexivity|]. exists s', op. right. exact Hi.
      * right. split; [intros s' op [E'|Hi]; [congruence|apply (N' s' op Hi)]|]. cbn [obind]. eexists. split; [reflexivity|].
        cbn. rewrite E. reflexivity.
    + rewrite F. left. split; [reflexivity|]. exists s, op. left. reflexivity.
Qed.

Lemma C60_defaults_iff_proof : forall (P : Prog) (o_size o_align : vty P -> Z) (N : StatNames P) (show : forall t : vty P, val (VT P t) -> outcome string)
    (l : list (dcall P)) (d : defaults P) (lost : list (dbuf P)),
  distinct_vtables P -> Forall (fun c => fits (call_stat c)) l -> printable N show -> d_run o_size o_align [] l = Done (d, lost) ->
  (defaults_debug N show d = UB <-> exists s, orphaned l s) /\
  ((forall s, ~ orphaned l s) -> exists r, defaults_debug N show d = Done r /\ length r = length d).
Proof.
  intros P o_size o_align N show l d lost Hd HF Hp E. pose proof (done_mirrors o_size o_align Hd l d lost E) as M.
  assert (G : forall s b, In (s, b) d -> hget inst_eqb d s = Some b).
  { intros s b Hi. apply (hget_nodup inst_eqb (inst_eqb_ok P Hd)); [|exact Hi]. apply (run_nodup o_size o_align Hd l [] d lost); [constructor|exact E]. }
  destruct (debug_two P N show d Hp) as [[Ed (s & op & Hi)]|(N' & r & Ed & Em)].
  - intros s b Hi. apply G in Hi. destruct (touched_iff Hd l d s (M s)) as (c & Hc & <-); [congruence|].
    split; [rewrite Forall_forall in HF; apply (HF c Hc)|]. destruct (M (call_stat c)) as (A & B & C).
    destruct (three Hd l (call_stat c)) as [H0|[H0|(l1 & v & l2 & El & Hf)]].
    + rewrite (A H0) in Hi. discriminate.
    + destruct (C H0) as (op & Ho). right. exists op. congruence.
    + destruct (B l1 v l2 El Hf) as (v' & _ & Ho). left. exists v'. congruence.
  - rewrite Ed. apply G in Hi. assert (O : orphaned l s).
    { destruct (M s) as (A & B & _). destruct (three Hd l s) as [H0|[H0|(l1 & v & l2 & El & Hf)]]; [|exact H0|].
      - rewrite (A H0) in Hi. discriminate.
      - destruct (B l1 v l2 El Hf) as (v' & _ & Ho). congruence. }
    split; [split; [intros _; exists s; exact O|reflexivity]|]. intros H. exfalso. apply (H s O).
  - rewrite Ed. split; [|intros _; exists r; auto]. split; [discriminate|]. intros (s & O). exfalso.
    destruct (M s) as (_ & _ & C). destruct (C O) as (op & Ho). apply (hget_in inst_eqb (inst_eqb_ok P Hd)) in Ho. apply (N' s op Ho).
Qed.
