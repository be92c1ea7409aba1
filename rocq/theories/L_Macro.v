From Coq Require Import String ZArith List Bool Lia.
From Verif Require Import M_Outcome M_Derive M_Macro S_Derive S_Macro L_Derive L_DeriveProofs.
Import ListNotations.
Local Open Scope string_scope.
Local Open Scope list_scope.
Local Open Scope Z_scope.

Section L.
  Context {T : Type} (parse : string -> option T).
  Notation faulty := (faulty parse).
  Notation declares := (declares parse).
  Definition fault (m : meta) : option why :=
    match mt_path m, mt_tail m with
    | PIdent n, TEq :: l =>
        if String.eqb n "value" then
          match l with TStr s :: _ => match parse s with Some _ => None | None => Some BadType end | _ => Some NotString end
        else None
    | _, _ => None
    end.
  Lemma fault_iff m w : fault m = Some w <-> faulty m w.
  Proof.
    unfold fault. split.
    - destruct (mt_path m) as [n| |] eqn:Ep; try discriminate. destruct (mt_tail m) as [|[] l] eqn:Et; try discriminate.
      destruct (String.eqb n "value") eqn:En; [|discriminate]. apply String.eqb_eq in En. subst n.
      destruct l as [|[|s|] l].
      + intros H. injection H as <-. apply (f_string _ _ [] Ep Et). intros s l'. discriminate.
      + intros H. injection H as <-. apply (f_string _ _ _ Ep Et). intros s l'. discriminate.
      + destruct (parse s) eqn:Es; [discriminate|]. intros H. injection H as <-. apply (f_type _ _ s); [|exact Es]. unfold says. rewrite Ep, Et. reflexivity.
      + intros H. injection H as <-. apply (f_string _ _ _ Ep Et). intros s l'. discriminate.
    - intros [l Ep Et Hl|s Hs Hp].
      + rewrite Ep, Et. cbn. destruct l as [|[|s|] l]; try reflexivity. destruct (Hl s l eq_refl).
      + unfold says in Hs. destruct (mt_path m) as [n| |]; try discriminate. destruct (mt_tail m) as [|[] [|[] l]]; try discriminate.
        destruct (String.eqb n "value"); [|discriminate]. injection Hs as ->. rewrite Hp. reflexivity.
  Qed.
  Definition upd (v : option T) (m : meta) : option T :=
    match says m with Some s => match parse s with Some t => Some t | None => v end | None => v end.
  Fixpoint first_fault (l : list meta) : option why :=
    match l with [] => None | m :: l' => match fault m with Some w => Some w | None => first_fault l' end end.
  Definition outcome_of (l : list meta) (v : option T) : mres (option T) :=
    match first_fault l with Some w => Abort w | None => Accept (fold_left upd l v) end.

  Lemma nested_step m l v : nested parse (m :: l) v =
    match fault m with Some w => Abort w | None => if complete m then nested parse l (upd v m) else Accept (upd v m) end.
  Proof.
    cbn [nested]. unfold closure, fault, upd, says, complete. destruct (mt_path m) as [n| |].
    - destruct (String.eqb n "value") eqn:En.
      + destruct (mt_tail m) as [|[|s|] l0]; cbn; try reflexivity. destruct l0 as [|[|s|] l0]; cbn; try reflexivity.
        destruct (parse s); [|reflexivity]. destruct l0 as [|k l0]; [reflexivity|]. reflexivity.
      + destruct (mt_tail m) as [|[|s|] l0]; cbn; try reflexivity. destruct l0 as [|[|s|] [|]]; reflexivity.
    - destruct (mt_tail m) as [|[|s|] l0]; reflexivity.
    - destruct (mt_tail m) as [|[|s|] l0]; reflexivity.
  Qed.
  Lemma nested_is l : forall v, nested parse l v = outcome_of (reached l) v.
  Proof.
    unfold outcome_of. induction l as [|m l IH]; intros v; [reflexivity|]. rewrite nested_step. cbn [reached first_fault fold_left].
    destruct (fault m) as [w|]; [reflexivity|]. destruct (complete m); [apply IH|reflexivity].
  Qed.
  Lemma first_app a b : first_fault (a ++ b) = match first_fault a with Some w => Some w | None => first_fault b end.
  Proof. induction a as [|m a IH]; cbn; [reflexivity|]. destruct (fault m); [reflexivity|exact IH]. Qed.
  Lemma attributes_is l : forall v, attributes parse l v = outcome_of (looked_at l) v.
  Proof.
    induction l as [|a l IH]; intros v; [reflexivity|]. cbn [attributes looked_at flat_map]. destruct a as [| |ms]; [apply IH|apply IH|].
    rewrite nested_is. unfold outcome_of. rewrite first_app. destruct (first_fault (reached ms)) as [w|]; [reflexivity|]. cbn [mbind].
    rewrite IH. unfold outcome_of. rewrite fold_left_app. reflexivity.
  Qed.
  Lemma first_none l : first_fault l = None <-> forall m w, In m l -> ~ faulty m w.
  Proof.
    induction l as [|m l IH]; cbn; [split; [intros _ m w []|reflexivity]|]. destruct (fault m) as [w|] eqn:E.
    - split; [discriminate|]. intros H. destruct (H m w (or_introl eq_refl)). apply fault_iff, E.
    - rewrite IH. split.
      + intros H m' w [<- |Hi] Hf; [apply fault_iff in Hf; congruence|]. apply (H m' w Hi Hf).
      + intros H m' w Hi. apply H. right. exact Hi.
  Qed.
  Lemma first_some l w : first_fault l = Some w <-> exists r1 m r2, l = r1 ++ m :: r2 /\ (forall m' w', In m' r1 -> ~ faulty m' w') /\ faulty m w.
  Proof.
    split.
    - induction l as [|m l IH]; cbn; [discriminate|]. destruct (fault m) as [w0|] eqn:E.
      + intros H. injection H as ->. exists [], m, l. split; [reflexivity|]. split; [intros ? ? []|apply fault_iff, E].
      + intros H. destruct (IH H) as (r1 & m0 & r2 & -> & H1 & H2). exists (m :: r1), m0, r2. split; [reflexivity|]. split; [|exact H2].
        intros m' w' [<- |Hi] Hf; [apply fault_iff in Hf; congruence|apply (H1 m' w' Hi Hf)].
    - intros (r1 & m & r2 & -> & H1 & H2). rewrite first_app. apply first_none in H1. rewrite H1. cbn. apply fault_iff in H2. rewrite H2. reflexivity.
  Qed.
  Lemma fold_says l : first_fault l = None -> forall v t, fold_left upd l v = Some t <->
    (exists r1 m r2 s, l = r1 ++ m :: r2 /\ says m = Some s /\ parse s = Some t /\ forall m', In m' r2 -> says m' = None) \/
    ((forall m, In m l -> says m = None) /\ v = Some t).
  Proof.
    induction l as [|m l IH]; intros Hf v t; cbn [fold_left].
    - split; [right; split; [intros m []|assumption]|]. intros [(r1 & m & r2 & s & H & _)|[_ H]]; [destruct r1; discriminate H|exact H].
    - cbn in Hf. destruct (fault m) as [w|] eqn:E; [discriminate|]. rewrite (IH Hf). split.
      + intros [(r1 & m0 & r2 & s & -> & H)|[H1 H2]]; [left; exists (m :: r1), m0, r2, s; split; [reflexivity|exact H]|].
        unfold upd in H2. destruct (says m) as [s|] eqn:Es.
        * destruct (parse s) as [t0|] eqn:Ep.
          -- injection H2 as ->. left. exists [], m, l, s. auto.
          -- exfalso. assert (fault m = Some BadType) by (apply fault_iff; apply (f_type _ _ s); assumption). congruence.
        * right. split; [|exact H2]. intros m' [<- |Hi]; auto.
      + intros [(r1 & m0 & r2 & s & H & H1 & H2 & H3)|[H1 H2]].
        * destruct r1 as [|m1 r1]; cbn in H; injection H as -> ->.
          -- right. split; [exact H3|]. unfold upd. rewrite H1, H2. reflexivity.
          -- left. exists r1, m0, r2, s. auto.
        * right. split; [intros m' Hi; apply H1; right; exact Hi|]. unfold upd. rewrite (H1 m (or_introl eq_refl)). exact H2.
  Qed.
  Lemma declares_iff l t : attributes parse l None = Accept (Some t) <-> declares l t.
  Proof.
    rewrite attributes_is. unfold outcome_of, S_Macro.declares. rewrite <- first_none. destruct (first_fault (looked_at l)) as [w|] eqn:E.
    - split; [discriminate|]. intros [H _]. discriminate H.
    - split.
      + intros H. split; [reflexivity|]. injection H as H. apply (fold_says _ E) in H as [H|[_ H]]; [exact H|discriminate H].
      + intros [_ H]. f_equal. apply (fold_says _ E). left. exact H.
  Qed.
  Lemma none_iff l : attributes parse l None = Accept None <-> forall m, In m (looked_at l) -> says m = None /\ forall w, ~ faulty m w.
  Proof.
    rewrite attributes_is. unfold outcome_of. destruct (first_fault (looked_at l)) as [w|] eqn:E.
    - split; [discriminate|]. intros H. apply first_some in E as (r1 & m & r2 & E & _ & Hf). destruct (H m) as [_ Hn]; [rewrite E; apply in_elt|]. destruct (Hn w Hf).
    - split.
      + intros H m Hm. injection H as H. split; [|intros w; revert m w Hm; apply first_none, E].
        destruct (says m) as [s|] eqn:Es; [|reflexivity]. exfalso.
        assert (G : forall l v, (exists m, In m l /\ says m <> None) \/ v <> None -> first_fault l = None -> fold_left upd l v <> None).
        { clear. induction l as [|m l IH]; intros v Hv Hf; cbn in *; [destruct Hv as [(m & [] & _)|Hv]; exact Hv|].
          destruct (fault m) as [w|] eqn:E; [discriminate|]. apply IH; [|exact Hf]. destruct (says m) as [s|] eqn:Es.
          - right. unfold upd. rewrite Es. destruct (parse s) as [t|] eqn:Ep; [discriminate|].
            assert (fault m = Some BadType) by (apply fault_iff; apply (f_type _ _ s); assumption). congruence.
          - unfold upd. rewrite Es. destruct Hv as [(m' & [<- |Hi] & Hs)|Hv]; [congruence|left; eauto|right; exact Hv]. }
        apply (G (looked_at l) None); [left; exists m; split; [exact Hm|congruence]|exact E|exact H].
      + intros H. f_equal. destruct (fold_left upd (looked_at l) None) as [t|] eqn:Ef; [|reflexivity].
        apply (fold_says _ E) in Ef as [(r1 & m & r2 & s & El & Es & _)|[_ Hn]]; [|discriminate Hn].
        destruct (H m) as [Hn _]; [rewrite El; apply in_elt|congruence].
  Qed.
  Lemma abort_iff l w : attributes parse l None = Abort w <->
    exists r1 m r2, looked_at l = r1 ++ m :: r2 /\ (forall m' w', In m' r1 -> ~ faulty m' w') /\ faulty m w.
  Proof.
    rewrite attributes_is. unfold outcome_of. rewrite <- first_some. destruct (first_fault (looked_at l)); split; congruence.
  Qed.

  (** ** Indices *)
  Lemma m_indices_ok oc l : forall last ix, m_indices oc last l = Accept ix <->
    (forall v, In v l -> mv_disc v <> Some DExpr) /\ indices_from oc last (map as_variant l) = Some ix.
  Proof.
    induction l as [|v l IH]; intros last ix; cbn [m_indices map indices_from].
    - split; [intros H; injection H as <-; split; [intros v []|reflexivity]|]. intros [_ H]. injection H as <-. reflexivity.
    - unfold as_variant at 1. cbn [vr_disc]. destruct (mv_disc v) as [[n|]|] eqn:Ev.
      + assert (E0 : 0 <=? Z.of_N n = true) by (apply Z.leb_le; lia). rewrite E0. cbn [andb]. destruct (Z.of_N n <=? u64_max).
        * specialize (IH (Z.of_N n)). destruct (m_indices oc (Z.of_N n) l) as [r|w] eqn:Er; cbn [mbind].
          -- destruct (proj1 (IH r) eq_refl) as [H1 H2]. rewrite H2. cbn. split.
             ++ intros H. injection H as <-. split; [|reflexivity]. intros v' [<- |Hi]; [congruence|apply H1, Hi].
             ++ intros [_ H]. injection H as <-. reflexivity.
          -- split; [discriminate|]. intros [H1 H2]. destruct (indices_from oc (Z.of_N n) (map as_variant l)) as [r|] eqn:Ei; [|discriminate H2].
             assert (@Abort (list Z) w = Accept r) by (apply IH; split; [intros v' Hi; apply H1; right; exact Hi|reflexivity]). discriminate.
        * split; [discriminate|]. intros [_ H]. discriminate H.
      + split; [discriminate|]. intros [H _]. destruct (H v (or_introl eq_refl) Ev).
      + destruct (u64_max <? last + 1).
        * destruct oc; [split; [discriminate|intros [_ H]; discriminate H]|].
          specialize (IH 0). destruct (m_indices false 0 l) as [r|w] eqn:Er; cbn [mbind].
          -- destruct (proj1 (IH r) eq_refl) as [H1 H2]. rewrite H2. cbn. split.
             ++ intros H. injection H as <-. split; [|reflexivity]. intros v' [<- |Hi]; [congruence|apply H1, Hi].
             ++ intros [_ H]. injection H as <-. reflexivity.
          -- split; [discriminate|]. intros [H1 H2]. destruct (indices_from false 0 (map as_variant l)) as [r|] eqn:Ei; [|discriminate H2].
             assert (@Abort (list Z) w = Accept r) by (apply IH; split; [intros v' Hi; apply H1; right; exact Hi|reflexivity]). discriminate.
        * specialize (IH (last + 1)). destruct (m_indices oc (last + 1) l) as [r|w] eqn:Er; cbn [mbind].
          -- destruct (proj1 (IH r) eq_refl) as [H1 H2]. rewrite H2. cbn. split.
             ++ intros H. injection H as <-. split; [|reflexivity]. intros v' [<- |Hi]; [congruence|apply H1, Hi].
             ++ intros [_ H]. injection H as <-. reflexivity.
          -- split; [discriminate|]. intros [H1 H2]. destruct (indices_from oc (last + 1) (map as_variant l)) as [r|] eqn:Ei; [|discriminate H2].
             assert (@Abort (list Z) w = Accept r) by (apply IH; split; [intros v' Hi; apply H1; right; exact Hi|reflexivity]). discriminate.
  Qed.
End L.
