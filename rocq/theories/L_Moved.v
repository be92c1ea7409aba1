(** Where a modifier is granted does not matter. *)
From Coq Require Import ZArith List Bool Permutation Lia.
From Verif Require Import S_Ratio S_Types L_Ints L_Types L_Types2 L_Types3 L_TypesProofs.
From Verif Require Import M_Outcome M_Ints M_Ratio M_Float M_Value M_Types M_Qualifier M_Search M_Stat M_StatMap M_HashMap M_Pair M_Defaults M_Querier
  S_Search S_StatMap S_Pair S_Defaults S_Defaults2 S_Querier S_Totals S_EndToEnd S_Moved L_Outcome L_Search L_EndToEnd L_EndToEnd2.
Import ListNotations.

Section V.
  Context {S : StatValue}.
  Implicit Types (h : history S) (l : list (history S)).
  (** The values of the joined histories. *)
  Definition values l (vs : list (val S)) : Prop := Forall2 (fun h v => value_of h = Done v) l vs.
  Lemma together_values l : forall h vs, values l vs ->
    value_of (fold_left Joined l h) = let! v := value_of h in S_Types.run v (map SJoin vs).
  Proof.
    induction l as [|k l IH]; intros h vs V; inversion V as [|? w ? ws Hk Hl]; subst; cbn [fold_left map].
    - destruct (value_of h); reflexivity.
    - rewrite (IH _ ws Hl). cbn [value_of]. rewrite Hk. destruct (value_of h) as [v| | |]; cbn [obind]; try reflexivity.
  Qed.
  Lemma together_done l : forall h a, value_of (fold_left Joined l h) = Done a -> exists v vs, value_of h = Done v /\ values l vs /\ S_Types.run v (map SJoin vs) = Done a.
  Proof.
    induction l as [|k l IH]; intros h a H; cbn [fold_left] in H.
    - exists a, []. split; [exact H|]. split; [constructor|reflexivity].
    - destruct (IH _ _ H) as (v & vs & Hv & V & R). cbn [value_of] in Hv. apply obind_inv in Hv. destruct Hv as (u & Hu & Hv). apply obind_inv in Hv. destruct Hv as (w & Hw & Hv).
      exists u, (w :: vs). split; [exact Hu|]. split; [constructor; assumption|]. cbn [map]. unfold S_Types.run in *. cbn [ofold run_step]. rewrite Hv. exact R.
  Qed.
  Lemma values_perm l l' : Permutation l l' -> forall vs, values l vs -> exists vs', values l' vs' /\ Permutation vs vs'.
  Proof.
    intros H. induction H as [|x l l' _ IH|x y l|l l' l'' _ IH1 _ IH2]; intros vs V.
    - inversion V; subst. exists []. split; constructor.
    - inversion V as [|? w ? ws Hk Hl]; subst. destruct (IH _ Hl) as (vs' & V' & Pm). exists (w :: vs'). split; constructor; assumption.
    - inversion V as [|? w ? ws Hk Hl]; subst. inversion Hl as [|? w' ? ws' Hk' Hl']; subst. exists (w' :: w :: ws'). split; [repeat constructor; assumption|constructor].
    - destruct (IH1 _ V) as (vs1 & V1 & P1). destruct (IH2 _ V1) as (vs2 & V2 & P2). exists vs2. split; [exact V2|eapply perm_trans; eassumption].
  Qed.
  Lemma joins_unordered (vs : list (val S)) : Forall unordered (map (@SJoin S) vs).
  Proof. induction vs; constructor; [exact Logic.I|assumption]. Qed.

  Variables (Pv : val S -> Prop) (Ev : step S -> Prop).
  Lemma values_ok l vs : (forall h v, In h l -> value_of h = Done v -> Ev (SJoin v)) -> values l vs -> Forall Ev (map SJoin vs).
  Proof.
    intros A V. induction V as [|h v l vs H _ IH]; constructor; [apply (A h); [left; reflexivity|exact H]|]. apply IH. intros k w Hk. apply A. right. exact Hk.
  Qed.
  Lemma together_moved h l l' a : order_free S Pv Ev -> Permutation l l' -> (forall v, value_of h = Done v -> Pv v) ->
    (forall h v, In h l -> value_of h = Done v -> Ev (SJoin v)) -> value_of (fold_left Joined l h) = Done a -> value_of (fold_left Joined l' h) = Done a.
  Proof.
    intros O Pm A B H. destruct (together_done _ _ _ H) as (v & vs & Hv & V & R). destruct (values_perm _ _ Pm _ V) as (vs' & V' & P').
    rewrite (together_values _ _ _ V'), Hv. cbn [obind]. rewrite <- R. symmetry.
    apply (O (map SJoin vs) (map SJoin vs')); [apply Permutation_map, P'|apply joins_unordered|exact (values_ok _ _ B V)|apply A, Hv].
  Qed.
  Lemma together_agree h l l' a a' : order_free_if_done S Pv Ev -> Permutation l l' -> (forall v, value_of h = Done v -> Pv v) ->
    (forall h v, In h l -> value_of h = Done v -> Ev (SJoin v)) ->
    value_of (fold_left Joined l h) = Done a -> value_of (fold_left Joined l' h) = Done a' -> a = a'.
  Proof.
    intros O Pm A B H H'. destruct (together_done _ _ _ H) as (v & vs & Hv & V & R). destruct (values_perm _ _ Pm _ V) as (vs' & V' & P').
    rewrite (together_values _ _ _ V'), Hv in H'. cbn [obind] in H'.
    apply (O (map SJoin vs) (map SJoin vs')  (Permutation_map _ P') (joins_unordered vs) (values_ok _ _ B V) v a a' (A v Hv) R H').
  Qed.
End V.

Section Claims.
  Variables (P : Prog) (Q : QFlag) (bs : list comparison -> bsres) (o_size o_align : vty P -> Z).
  Notation VS s := (VT P (vt_value P (si_ty s))).
  Hypotheses (C : bs_contract bs) (D : distinct_vtables P) (OQ : lawful_ord (q_cmp Q)) (Hq : flags_eq (Q := Q)).

  Lemma chosen_all (s : inst P) (x : qquery Q) ll sel : Forall2 (chosen s x) ll sel -> forall sel', Forall2 (chosen s x) ll sel' -> sel = sel'.
  Proof.
    intros H. induction H as [|l hs ll sel Hl _ IH]; intros sel' H'; inversion H' as [|? hs' ? sel1 Hl' Hr]; subst; [reflexivity|].
    f_equal; [eapply (chosen_unique OQ); [|exact Hl|exact Hl']; reflexivity|apply IH, Hr].
  Qed.
  Lemma chosen_told (s : inst P) (x : qquery Q) ll sel h : Forall2 (chosen s x) ll sel -> In h (map snd (concat sel)) -> exists l q, In l ll /\ qualifies_as q x = true /\ account l s q = Some h.
  Proof.
    intros H. induction H as [|l hs ll sel Hl _ IH]; intros I; [destruct I|]. cbn [concat] in I. rewrite map_app, in_app_iff in I. destruct I as [I|I].
    - apply in_map_iff in I. destruct I as ([q k] & Ek & I). cbn in Ek. subst k. apply (proj2 Hl) in I. exists l, q. split; [left; reflexivity|]. split; apply I.
    - destruct (IH I) as (l' & q & I' & K). exists l', q. split; [right; exact I'|exact K].
  Qed.

  Lemma moved_parts g g' e e' x s past past' : set_up bs o_size o_align g -> set_up bs o_size o_align g' -> fits s -> moved (P := P) (Q := Q) g g' e e' x s ->
    exists h l l', Permutation l l' /\ h = start (match g_defaults g with Some l => l | None => [] end) s /\
      (forall k, In k l -> exists ch lg q, w_entities (j_world (g_querier g)) e = Some ch /\ In lg (logs_for g e (or_nil ch)) /\ qualifies_as q x = true /\ account lg s q = Some k) /\
      forall n,
      asked g e x s past n = (let! v := value_of (fold_left Joined l h) in Done (Some v)) /\
      asked_eval g e x s past n = (let! v := worth (fold_left Joined l h) in Done (Some v)) /\
      asked g' e' x s past' n = (let! v := value_of (fold_left Joined l' h) in Done (Some v)) /\
      asked_eval g' e' x s past' n = (let! v := worth (fold_left Joined l' h) in Done (Some v)).
  Proof.
    intros U U' F (ch & ch' & He & He' & Es & sel & sel' & H & H' & Pm).
    destruct (eval_any bs o_size o_align C D OQ Hq g e ch x s past U F He) as (sel1 & H1 & H2).
    destruct (eval_any bs o_size o_align C D OQ Hq g' e' ch' x s past' U' F He') as (sel1' & H1' & H2').
    assert (sel1 = sel) by exact (chosen_all _ _ _ _ H1 _ H). assert (sel1' = sel') by exact (chosen_all _ _ _ _ H1' _ H'). subst sel1 sel1'.
    exists (start (match g_defaults g with Some l => l | None => [] end) s), (map snd (concat sel)), (map snd (concat sel')).
    split; [exact Pm|]. split; [reflexivity|]. split.
    - intros k I. destruct (chosen_told _ _ _ _ _ H I) as (lg & q & A & B). exists ch, lg, q. split; [exact He|]. split; [exact A|exact B].
    - intros n. destruct (H2 n) as [A B]. destruct (H2' n) as [A' B']. unfold stories, together in *. rewrite <- Es in A', B'.
      unfold asked, asked_eval. auto.
  Qed.

  Lemma C79_moved_proof : forall (g g' : game P Q) e e' x s past past' Pv Ev,
    set_up bs o_size o_align g -> set_up bs o_size o_align g' -> fits s -> moved g g' e e' x s ->
    order_free (VS s) Pv Ev -> starts_in g s Pv -> grants_in g e x s Ev ->
    forall n, (forall a, asked g e x s past n = Done a <-> asked g' e' x s past' n = Done a) /\
      (forall r, asked_eval g e x s past n = Done r <-> asked_eval g' e' x s past' n = Done r).
  Proof.
    intros g g' e e' x s past past' Pv Ev U U' F M O A B n.
    destruct (moved_parts g g' e e' x s past past' U U' F M) as (h & l & l' & Pm & Eh & Told & Ans). destruct (Ans n) as (A1 & A2 & A3 & A4).
    rewrite A1, A2, A3, A4.
    assert (Hh : forall v, value_of h = Done v -> Pv v) by (intros v; subst h; apply A).
    assert (Hl : forall k v, In k l -> value_of k = Done v -> Ev (SJoin v)).
    { intros k v I V. destruct (Told k I) as (ch & lg & q & T1 & T2 & T3 & T4). exact (B ch lg q k v T1 T2 T3 T4 V). }
    assert (Hl' : forall k v, In k l' -> value_of k = Done v -> Ev (SJoin v)) by (intros k v I; apply Hl; apply (Permutation_in _ (Permutation_sym Pm)), I).
    assert (E : forall a, value_of (fold_left Joined l h) = Done a <-> value_of (fold_left Joined l' h) = Done a).
    { intros a. split; intros K; [exact (together_moved Pv Ev h l l' a O Pm Hh Hl K)|exact (together_moved Pv Ev h l' l a O (Permutation_sym Pm) Hh Hl' K)]. }
    unfold worth. split; intros a; split; intros K.
    - destruct (value_of (fold_left Joined l h)) as [v| | |]; try discriminate. rewrite (proj1 (E v) eq_refl). exact K.
    - destruct (value_of (fold_left Joined l' h)) as [v| | |]; try discriminate. rewrite (proj2 (E v) eq_refl). exact K.
    - destruct (value_of (fold_left Joined l h)) as [v| | |]; try discriminate. rewrite (proj1 (E v) eq_refl). exact K.
    - destruct (value_of (fold_left Joined l' h)) as [v| | |]; try discriminate. rewrite (proj2 (E v) eq_refl). exact K.
  Qed.
  Lemma C79_agree_proof : forall (g g' : game P Q) e e' x s past past' Pv Ev,
    set_up bs o_size o_align g -> set_up bs o_size o_align g' -> fits s -> moved g g' e e' x s ->
    order_free_if_done (VS s) Pv Ev -> starts_in g s Pv -> grants_in g e x s Ev ->
    forall n, (forall a a', asked g e x s past n = Done a -> asked g' e' x s past' n = Done a' -> a = a') /\
      (forall r r', asked_eval g e x s past n = Done r -> asked_eval g' e' x s past' n = Done r' -> r = r').
  Proof.
    intros g g' e e' x s past past' Pv Ev U U' F M O A B n.
    destruct (moved_parts g g' e e' x s past past' U U' F M) as (h & l & l' & Pm & Eh & Told & Ans). destruct (Ans n) as (A1 & A2 & A3 & A4).
    rewrite A1, A2, A3, A4.
    assert (Hh : forall v, value_of h = Done v -> Pv v) by (intros v; subst h; apply A).
    assert (Hl : forall k v, In k l -> value_of k = Done v -> Ev (SJoin v)).
    { intros k v I V. destruct (Told k I) as (ch & lg & q & T1 & T2 & T3 & T4). exact (B ch lg q k v T1 T2 T3 T4 V). }
    pose proof (fun a a' => together_agree Pv Ev h l l' a a' O Pm Hh Hl) as E. unfold worth.
    split; intros a a' K K'; destruct (value_of (fold_left Joined l h)) as [v| | |]; try discriminate; destruct (value_of (fold_left Joined l' h)) as [v'| | |]; try discriminate.
    - specialize (E v v' eq_refl eq_refl). cbn [obind] in *. congruence.
    - specialize (E v v' eq_refl eq_refl). subst v'. congruence.
  Qed.

  (** Types that need no order at all. *)
  Lemma anyhow (g g' : game P Q) e e' x s past past' T (E : VS s = T) : set_up bs o_size o_align g -> set_up bs o_size o_align g' -> fits s -> moved g g' e e' x s ->
    order_free T (fun _ => True) (fun _ => True) ->
    forall n, (forall a, asked g e x s past n = Done a <-> asked g' e' x s past' n = Done a) /\
      (forall r, asked_eval g e x s past n = Done r <-> asked_eval g' e' x s past' n = Done r).
  Proof.
    intros U U' F M O. subst T. apply (C79_moved_proof g g' e e' x s past past' (fun _ => True) (fun _ => True) U U' F M O); red; auto.
  Qed.
  Lemma either (g g' : game P Q) e e' x s past past' T (E : VS s = T) : set_up bs o_size o_align g -> set_up bs o_size o_align g' -> fits s -> moved g g' e e' x s ->
    order_free_if_done T (fun _ => True) (fun _ => True) ->
    forall n, (forall a a', asked g e x s past n = Done a -> asked g' e' x s past' n = Done a' -> a = a') /\
      (forall r r', asked_eval g e x s past n = Done r -> asked_eval g' e' x s past' n = Done r' -> r = r').
  Proof.
    intros U U' F M O. subst T. apply (C79_agree_proof g g' e e' x s past past' (fun _ => True) (fun _ => True) U U' F M O); red; auto.
  Qed.
  Lemma C79_order_free_types_proof : forall (g g' : game P Q) e e' x s past past',
    set_up bs o_size o_align g -> set_up bs o_size o_align g' -> fits s -> moved g g' e e' x s ->
    (exists oc T, (i_flav T = FWrapping \/ (i_flav T = FPrim /\ oc = false)) /\ (VS s = statInt oc T \/ exists R scale, VS s = statPctAdd oc T R scale)) \/
    VS s = statFlags zflags \/ VS s = statExists \/ VS s = boolV \/ (exists A, VS s = statOnce A) ->
    forall n, (forall a, asked g e x s past n = Done a <-> asked g' e' x s past' n = Done a) /\
      (forall r, asked_eval g e x s past n = Done r <-> asked_eval g' e' x s past' n = Done r).
  Proof.
    intros g g' e e' x s past past' U U' F M [(oc & T & W & [E|(R & scale & E)])|[E|[E|[E|(A & E)]]]]; apply (anyhow g g' e e' x s past past' _ E U U' F M).
    - apply statInt_order_free, W.
    - apply statPctAdd_order_free, W.
    - apply zflags_order_free.
    - apply statExists_order_free.
    - apply bool_order_free.
    - apply statOnce_order_free.
  Qed.
  Lemma C79_checked_types_proof : forall (g g' : game P Q) e e' x s past past',
    set_up bs o_size o_align g -> set_up bs o_size o_align g' -> fits s -> moved g g' e e' x s ->
    (exists t, VS s = statInt true (prim t) \/ exists R scale, VS s = statPctAdd true (prim t) R scale) ->
    forall n, (forall a a', asked g e x s past n = Done a -> asked g' e' x s past' n = Done a' -> a = a') /\
      (forall r r', asked_eval g e x s past n = Done r -> asked_eval g' e' x s past' n = Done r' -> r = r').
  Proof.
    intros g g' e e' x s past past' U U' F M (t & [E|(R & scale & E)]); apply (either g g' e e' x s past past' _ E U U' F M).
    - apply statInt_agree.
    - apply statPctAdd_agree.
  Qed.
End Claims.
