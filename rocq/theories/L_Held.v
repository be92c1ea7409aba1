(** Proofs: registered bounds hold. *)
From Coq Require Import ZArith List Bool Lia.
From Verif Require Import S_Types.
From Verif Require Import M_Outcome M_Value M_Qualifier M_Search M_Stat M_StatMap M_HashMap M_Pair M_Defaults M_Querier
  S_Search S_Pair S_StatMap S_Defaults S_Defaults2 S_Querier S_Totals S_EndToEnd S_Rules S_Ties S_Held
  L_Outcome L_StatMap L_Querier L_Querier2 L_QueryProofs L_CacheProofs L_EndToEnd L_EndToEnd2 L_MonoQuery L_Rules L_Ties.
Import ListNotations.

Section V.
  Local Open Scope Z_scope.
  Context {V : StatValue}.
  Variables (lo hi : val V -> Z) (bnd : boundsT V -> Z).
  Hypothesis B : bounds_accumulate V lo hi bnd.
  Definition narrower (v v' : val V) : Prop := lo v <= lo v' /\ hi v' <= hi v.
  Lemma narrower_trans a b c : narrower a b -> narrower b c -> narrower a c.
  Proof. unfold narrower. lia. Qed.
  Lemma one_step s (v v' : val V) : unordered s -> run_step v s = Done v' -> narrower v v' /\
    (forall b, s = SOp (OMin b) -> bnd b <= lo v') /\ (forall b, s = SOp (OMax b) -> hi v' <= bnd b).
  Proof.
    intros Hs E. destruct (B [s] v v') as [Hl Hh]; [constructor; [exact Hs|constructor]|unfold S_Types.run; cbn [ofold]; rewrite E; reflexivity|].
    cbn [flat_map] in Hl, Hh. rewrite app_nil_r in Hl, Hh. unfold narrower.
    destruct s as [[x|x|x|x|x|x|x]|w]; cbn [lower upper largest smallest fold_left] in Hl, Hh; unfold largest, smallest in Hl, Hh; cbn [fold_left] in Hl, Hh;
      repeat split; try lia; intros b Eb; try discriminate; injection Eb as ->; lia.
  Qed.
  Lemma applied_narrow ops : Forall no_base ops -> forall (h : history V) v v', value_of h = Done v -> value_of (fold_left Applied ops h) = Done v' -> narrower v v'.
  Proof.
    induction ops as [|o ops IH]; intros Ho h v v' E E'; [cbn in E'; rewrite E in E'; injection E' as <-; unfold narrower; lia|].
    inversion Ho as [|? ? Ho1 Ho2]; subst. cbn [fold_left] in E'. destruct (applied_before ops _ _ E') as [w Ew]. pose proof Ew as Ew'. cbn [value_of] in Ew. rewrite E in Ew. cbn [obind] in Ew.
    apply (narrower_trans _ w); [|exact (IH Ho2 _ _ _ Ew' E')]. apply (one_step (SOp o)); [destruct o; cbn in *; auto|exact Ew].
  Qed.
  Lemma joined_narrow hs : forall (h : history V) v v', value_of h = Done v -> value_of (fold_left Joined hs h) = Done v' -> narrower v v'.
  Proof.
    induction hs as [|k hs IH]; intros h v v' E E'; [cbn in E'; rewrite E in E'; injection E' as <-; unfold narrower; lia|].
    cbn [fold_left] in E'. destruct (joined_before hs _ _ E') as [w Ew]. pose proof Ew as Ew'. cbn [value_of] in Ew. rewrite E in Ew. cbn [obind] in Ew.
    apply obind_inv in Ew as (u & Eu & Ew). apply (narrower_trans _ w); [|exact (IH _ _ _ Ew' E')]. apply (one_step (SJoin u)); [exact Logic.I|exact Ew].
  Qed.
End V.

Section L.
  Context {P : Prog} {Q : QFlag}.
  Notation VS s := (VT P (vt_value P (si_ty s))).
  Notation story s := (history (VS s)).
  Hypothesis OQ : lawful_ord (q_cmp Q).
  Variable bs : list comparison -> bsres.
  Hypothesis C : bs_contract bs.
  Hypothesis D : distinct_vtables P.
  Variable T : StatTypes P.
  Variables o_size o_align : vty P -> Z.
  Hypothesis Hq : flags_eq (Q := Q).

  (** The starting value. *)
  Lemma patched_on (s : inst P) l2 : Forall (leaves_bounds s) l2 -> forall (L : forall s : inst P, option (story s)) h, L s = Some h ->
    exists ops, Forall no_base ops /\ fold_left dedited l2 L s = Some (fold_left Applied ops h).
  Proof.
    induction 1 as [|d l2 Hd _ IH]; intros L h E; [exists []; split; [constructor|exact E]|]. cbn [fold_left].
    destruct d as [s' k v|s' o]; cbn [leaves_bounds] in Hd.
    - apply IH. cbn [dedited]. rewrite dset_other by exact Hd. exact E.
    - destruct (stat_dec s' s) as [->|N].
      + destruct (IH (dedited L (EPatch s o)) (Applied h o)) as (ops & Ho & Ef); [cbn [dedited]; rewrite E; apply dset_same|].
        exists (o :: ops). split; [constructor; [apply Hd; reflexivity|exact Ho]|exact Ef].
      + apply IH. cbn [dedited]. rewrite dset_other by exact N. exact E.
  Qed.
  Lemma registered_start (g : game P Q) s o : registered g s o -> exists h ops, Forall no_base ops /\ starting g s = fold_left Applied ops (Applied h o).
  Proof.
    intros (l1 & l2 & Eg & Hl). unfold starting. rewrite Eg. unfold start. rewrite fold_left_app. cbn [fold_left].
    set (L := fold_left dedited l1 (fun _ => None)).
    destruct (patched_on s l2 Hl (dedited L (EPatch s o)) (Applied (so_far (L s)) o)) as (ops & Ho & Ef); [cbn [dedited]; apply dset_same|].
    exists (so_far (L s)), ops. split; [exact Ho|]. rewrite Ef. reflexivity.
  Qed.

  Section B.
    Local Open Scope Z_scope.
    Variable s : inst P.
    Variables (lo hi : val (VS s) -> Z) (out : outT (VS s) -> Z) (bnd : boundsT (VS s) -> Z).
    Hypothesis Ev : eval_bounded (VS s) lo hi out.
    Hypothesis Bd : bounds_accumulate (VS s) lo hi bnd.

    Lemma start_bound (g : game P Q) o v0 : registered g s o -> value_of (starting g s) = Done v0 ->
      (forall b, o = OMin b -> bnd b <= lo v0) /\ (forall b, o = OMax b -> hi v0 <= bnd b).
    Proof.
      intros Hr E. destruct (registered_start g s o Hr) as (h & ops & Ho & Es). rewrite Es in E. destruct (applied_before ops _ _ E) as [w Ew].
      pose proof (applied_narrow lo hi bnd Bd ops Ho _ _ _ Ew E) as [N1 N2]. cbn [value_of] in Ew. apply obind_inv in Ew as (u & Eu & Ew).
      split; intros b ->.
      - destruct (one_step lo hi bnd Bd (SOp (OMin b)) u w Logic.I Ew) as (_ & H1 & _). specialize (H1 b eq_refl). lia.
      - destruct (one_step lo hi bnd Bd (SOp (OMax b)) u w Logic.I Ew) as (_ & _ & H2). specialize (H2 b eq_refl). lia.
    Qed.
    Lemma leads_narrow (j : joined P Q) e x : stats_kept j -> forall (h k : story s) c, leads j e x s h c k -> (forall r, In (inr r) c -> adjusts s r) ->
      forall v v', value_of h = Done v -> value_of k = Done v' -> narrower lo hi v v'.
    Proof.
      intros Hk h k c L. induction L as [h|h l hs c k Hc L IH|h r E ops c k Hy L IH|h r c k N L IH]; intros Ha v v' E1 E2.
      - rewrite E1 in E2. injection E2 as <-. unfold narrower. lia.
      - destruct (leads_before _ _ _ _ _ _ _ L _ E2) as [w Ew]. apply (narrower_trans lo hi _ w).
        + exact (joined_narrow lo hi bnd Bd _ _ _ _ E1 Ew).
        + apply IH; [|exact Ew|exact E2]. intros r Hr. apply Ha. right. exact Hr.
      - destruct (leads_before _ _ _ _ _ _ _ L _ E2) as [w Ew]. apply (narrower_trans lo hi _ w).
        + refine (applied_narrow lo hi bnd Bd _ _ _ _ _ E1 Ew). pose proof (Ha r (or_introl eq_refl) E e x) as Hr.
          apply (yields_ask D) in Hy as [n En]; [|exact Hq|exact Hk]. pose proof (oeval_returns _ _ _ _ Hr En) as Ho. clear - Ho. destruct E. exact Ho.
        + apply IH; [|exact Ew|exact E2]. intros r' Hr. apply Ha. right. exact Hr.
      - apply IH; [|exact E1|exact E2]. intros r' Hr. apply Ha. right. exact Hr.
    Qed.
    Lemma leads_held (g : game P Q) l e x c k r : lawful_game T bs o_size o_align g l -> fits s -> leads (ruled T bs g l) e x s (starting g s) c k -> (forall r, In (inr r) c -> adjusts s r) ->
      worth k = Done r ->
      (forall b, registered g s (OMin b) -> bnd b <= out r) /\
      (forall b, registered g s (OMax b) -> exists v, value_of k = Done v /\ out r <= Z.max (bnd b) (lo v)).
    Proof.
      intros U F L Ha Hw. unfold worth in Hw. apply obind_inv in Hw as (v & Hv & Hw). pose proof (ruled_kept bs D T o_size o_align g l U) as Hk.
      destruct (ruled_initial bs D T o_size o_align g l s (proj1 U) F) as (v0 & Ev0 & _). change (start (dlog g) s) with (starting g s) in Ev0.
      destruct (leads_narrow _ e x Hk _ _ _ L Ha _ _ Ev0 Hv) as [N1 N2]. destruct (Ev _ _ Hw) as (H1 & H2 & H3). split; intros b Hr.
      - pose proof (proj1 (start_bound g _ v0 Hr Ev0) b eq_refl). lia.
      - exists v. split; [exact Hv|]. pose proof (proj2 (start_bound g _ v0 Hr Ev0) b eq_refl). lia.
    Qed.
    Lemma C86_query_proof (g : game P Q) l e ch x past r : lawful_game T bs o_size o_align g l -> fits s -> w_entities (j_world (g_querier g)) e = Some ch ->
      (forall r, In (inr r) l -> adjusts s r) -> yields (ruled T bs g l) past (p_query_eval e x s) (Some r) ->
      (forall b, registered g s (OMin b) -> bnd b <= out r) /\
      (forall b, registered g s (OMax b) -> exists k v, leads (ruled T bs g l) e x s (starting g s) (causes g l e (or_nil ch)) k /\ value_of k = Done v /\ out r <= Z.max (bnd b) (lo v)).
    Proof.
      intros U F He Ha Y. destruct (proj1 (C80_eval_proof OQ bs C D T o_size o_align g l e ch x s past r Hq U F He) Y) as (k & L & Hw).
      destruct (leads_held g l e x _ k r U F L) with (2 := Hw) as [H1 H2].
      - intros r' Hr. unfold causes in Hr. apply in_app_or in Hr as [Hr|Hr]; apply in_map_iff in Hr as (y & E & Hi); [|discriminate]. destruct y as [p|r0]; [discriminate|]. injection E as <-. apply Ha, Hi.
      - split; [exact H1|]. intros b Hr. destruct (H2 b Hr) as (v & Hv & Hm). exists k, v. auto.
    Qed.
    Lemma C86_relation_proof (g : game P Q) l ts e f ce cf x past r : lawful_game T bs o_size o_align g l -> tied_game T g ts -> fits s ->
      w_entities (j_world (g_querier g)) e = Some ce -> w_entities (j_world (g_querier g)) f = Some cf ->
      (forall r, In (inr r) l -> adjusts s r) -> (forall r, In r (ties g ts e f) -> adjusts s r) -> yields (ruled T bs g l) past (p_relation_eval e f x s) (Some r) ->
      (forall b, registered g s (OMin b) -> bnd b <= out r) /\
      (forall b, registered g s (OMax b) -> exists k v,
         leads (ruled T bs g l) (w_placeholder (j_world (g_querier g))) x s (starting g s) (rel_causes g l ts e f) k /\ value_of k = Done v /\ out r <= Z.max (bnd b) (lo v)).
    Proof.
      intros U Ht F He Hf Ha Hb Y. destruct (proj1 (C85_eval_proof OQ bs C D T o_size o_align g l ts e f ce cf x s past r Hq U Ht F He Hf) Y) as (k & L & Hw).
      destruct (leads_held g l _ x _ k r U F L) with (2 := Hw) as [H1 H2].
      - intros r' Hr. unfold rel_causes in Hr. apply in_app_or in Hr as [Hr|Hr]; apply in_map_iff in Hr as (y & E & Hi).
        + destruct y as [p|r0]; [discriminate|]. injection E as <-. apply Ha, Hi.
        + injection E as <-. apply Hb, Hi.
      - split; [exact H1|]. intros b Hr. destruct (H2 b Hr) as (v & Hv & Hm). exists k, v. auto.
    Qed.
  End B.
End L.
