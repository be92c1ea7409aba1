From Coq Require Import String ZArith List Bool Lia.
From Verif Require Import M_Outcome M_Derive M_Macro S_Derive S_Macro L_Derive L_DeriveProofs L_Macro.
Import ListNotations.
Local Open Scope string_scope.
Local Open Scope list_scope.
Local Open Scope Z_scope.

Definition index_fault (oc : bool) (lst : Z) (v : mvariant) (w : why) : Prop :=
  (mv_disc v = Some DExpr /\ w = NotNumber) \/
  (exists n, mv_disc v = Some (DLit n) /\ u64_max < Z.of_N n /\ w = NotU64) \/
  (mv_disc v = None /\ lst = u64_max /\ oc = true /\ w = Overflow).
(** The index of one variant. *)
Definition next_index (oc : bool) (lst : Z) (v : mvariant) : mres Z :=
  match mv_disc v with
  | None => if u64_max <? lst + 1 then if oc then Abort Overflow else Accept 0 else Accept (lst + 1)
  | Some DExpr => Abort NotNumber
  | Some (DLit n) => if Z.of_N n <=? u64_max then Accept (Z.of_N n) else Abort NotU64
  end.
Lemma m_step oc lst v l : m_indices oc lst (v :: l) = mbind (next_index oc lst v) (fun i => mbind (m_indices oc i l) (fun r => Accept (i :: r))).
Proof.
  cbn [m_indices]. unfold next_index. destruct (mv_disc v) as [[n|]|]; [destruct (Z.of_N n <=? u64_max); reflexivity|reflexivity|].
  destruct (u64_max <? lst + 1); [destruct oc; reflexivity|reflexivity].
Qed.
Lemma next_bound oc lst v i : 0 <= lst -> next_index oc lst v = Accept i -> 0 <= i <= u64_max.
Proof.
  intros H0. unfold next_index. destruct (mv_disc v) as [[n|]|]; [|discriminate|].
  - destruct (Z.of_N n <=? u64_max) eqn:E; [|discriminate]. apply Z.leb_le in E. intros H. injection H as <-. lia.
  - destruct (u64_max <? lst + 1) eqn:E; [destruct oc; [discriminate|]; intros H; injection H as <-; unfold u64_max; lia|].
    apply Z.ltb_ge in E. intros H. injection H as <-. lia.
Qed.
Lemma next_fault oc lst v w : 0 <= lst <= u64_max -> next_index oc lst v = Abort w <-> index_fault oc lst v w.
Proof.
  intros Hl. unfold next_index, index_fault. destruct (mv_disc v) as [[n|]|].
  - destruct (Z.of_N n <=? u64_max) eqn:E.
    + apply Z.leb_le in E. split; [discriminate|]. intros [[H _]|[(m & H & Hm & _)|[H _]]]; try discriminate H. injection H as ->. lia.
    + apply Z.leb_gt in E. split; [intros H; injection H as <-; right; left; exists n; auto|].
      intros [[H _]|[(m & H & Hm & ->)|[H _]]]; try discriminate H. reflexivity.
  - split; [intros H; injection H as <-; left; auto|]. intros [[_ ->]|[(m & H & _)|[H _]]]; try discriminate H. reflexivity.
  - destruct (u64_max <? lst + 1) eqn:E.
    + apply Z.ltb_lt in E. destruct oc.
      * split; [intros H; injection H as <-; right; right; repeat split; lia|]. intros [[H _]|[(m & H & _)|(_ & _ & _ & ->)]]; try discriminate H. reflexivity.
      * split; [discriminate|]. intros [[H _]|[(m & H & _)|(_ & _ & H & _)]]; discriminate H.
    + apply Z.ltb_ge in E. split; [discriminate|]. intros [[H _]|[(m & H & _)|(_ & H & _)]]; try discriminate H. lia.
Qed.
Lemma last_cons (i : Z) ix d : last (i :: ix) d = last ix i.
Proof. revert i d. induction ix as [|j ix IH]; intros i d; [reflexivity|]. rewrite IH. change (last (i :: j :: ix) d) with (last (j :: ix) d). apply IH. Qed.
Lemma m_indices_bad oc l : forall lst w, 0 <= lst <= u64_max -> m_indices oc lst l = Abort w <->
  exists l1 v l2 ix, l = l1 ++ v :: l2 /\ m_indices oc lst l1 = Accept ix /\ index_fault oc (last ix lst) v w.
Proof.
  induction l as [|v l IH]; intros lst w Hl.
  - split; [discriminate|]. intros ([|] & v & l2 & ix & H & _); discriminate H.
  - rewrite m_step. destruct (next_index oc lst v) as [i|w0] eqn:En; cbn [mbind].
    + pose proof (next_bound _ _ _ _ (proj1 Hl) En) as Hi. specialize (IH i w Hi). split.
      * intros H. destruct (m_indices oc i l) as [r|w0] eqn:Er; [discriminate H|]. cbn in H. injection H as ->.
        destruct (proj1 IH eq_refl) as (l1 & v0 & l2 & ix & -> & H1 & H2). exists (v :: l1), v0, l2, (i :: ix). split; [reflexivity|].
        split; [rewrite m_step, En; cbn [mbind]; rewrite H1; reflexivity|]. rewrite last_cons. exact H2.
      * intros (l1 & v0 & l2 & ix & H & H1 & H2). destruct l1 as [|v1 l1]; cbn in H; injection H as -> ->.
        -- cbn in H1. injection H1 as <-. cbn in H2. apply (next_fault oc lst v0 w Hl) in H2. congruence.
        -- rewrite m_step, En in H1. cbn [mbind] in H1. destruct (m_indices oc i l1) as [r|w0] eqn:Er; [|discriminate H1]. cbn in H1. injection H1 as <-.
           rewrite last_cons in H2. rewrite (proj2 IH); [reflexivity|]. exists l1, v0, l2, r. auto.
    + split.
      * intros H. injection H as ->. exists [], v, l, []. split; [reflexivity|]. split; [reflexivity|]. cbn. apply (next_fault oc lst v w Hl), En.
      * intros (l1 & v0 & l2 & ix & H & H1 & H2). destruct l1 as [|v1 l1]; cbn in H; injection H as -> ->.
        -- cbn in H1. injection H1 as <-. cbn in H2. apply (next_fault oc lst v0 w Hl) in H2. congruence.
        -- rewrite m_step, En in H1. discriminate H1.
Qed.

Section L.
  Context {T : Type} (parse : string -> option T).
  Lemma plain_all l : forallb plain_variant l = true <-> forall v, In v l -> mv_fields v = FUnit.
  Proof.
    rewrite forallb_forall. split; intros H v Hv; specialize (H v Hv); unfold plain_variant in *; destruct (mv_fields v); congruence.
  Qed.
  Lemma simple_all l : Forall simple l <-> (forall v, In v l -> mv_fields v = FUnit) /\ forall v, In v l -> mv_disc v <> Some DExpr.
  Proof.
    rewrite Forall_forall. unfold simple. split; [intros H; split; intros v Hv; apply H, Hv|]. intros [H1 H2] v Hv. auto.
  Qed.
  Lemma accepts_iff oc i g : derive_stat parse oc i = Accept g <-> exists t, declares parse (it_attrs i) t /\ generates oc (it_data i) t g.
  Proof.
    unfold derive_stat. split.
    - destruct (attributes parse (it_attrs i) None) as [[t|]|w] eqn:Ea; cbn [mbind]; [|discriminate|discriminate].
      intros H. exists t. split; [apply declares_iff, Ea|]. unfold generates. destruct (it_data i) as [[]|l|]; [| |right|]; try discriminate H.
      + injection H as <-. left. auto.
      + destruct (forallb plain_variant l) eqn:Ep; [|discriminate H]. destruct (m_indices oc 0 l) as [ix|w] eqn:Ei; cbn in H; [|discriminate H]. injection H as <-.
        apply m_indices_ok in Ei as [E1 E2]. exists l, ix. split; [reflexivity|]. split; [apply simple_all; split; [apply plain_all, Ep|exact E1]|]. split; [exact E2|reflexivity].
    - intros (t & Ha & [[-> ->]|(l & ix & -> & Hs & Hi & ->)]); apply declares_iff in Ha; rewrite Ha; cbn [mbind]; [reflexivity|].
      apply simple_all in Hs as [H1 H2]. apply plain_all in H1. rewrite H1.
      assert (m_indices oc 0 l = Accept ix) as -> by (apply m_indices_ok; split; [exact H2|exact Hi]). reflexivity.
  Qed.
  Lemma bad_index_iff oc l w : (forall v, In v l -> mv_fields v = FUnit) -> m_indices oc 0 l = Abort w <-> bad_index oc l w.
  Proof.
    intros Hu. rewrite m_indices_bad by (unfold u64_max; lia). unfold bad_index.
    split.
    - intros (l1 & v & l2 & ix & -> & H1 & H2). apply m_indices_ok in H1 as [E1 E2]. exists l1, v, l2, ix. split; [reflexivity|].
      split; [apply simple_all; split; [intros v' Hv; apply Hu, in_or_app; auto|exact E1]|]. split; [exact E2|exact H2].
    - intros (l1 & v & l2 & ix & -> & H1 & H2 & H3). apply simple_all in H1 as [_ E1]. exists l1, v, l2, ix. split; [reflexivity|].
      split; [apply m_indices_ok; split; assumption|exact H3].
  Qed.
  Lemma refused_iff oc i w : derive_stat parse oc i = Abort w <-> refused parse oc i w.
  Proof.
    unfold derive_stat. split.
    - destruct (attributes parse (it_attrs i) None) as [[t|]|w0] eqn:Ea; cbn [mbind].
      + assert (Hd : declares parse (it_attrs i) t) by (apply declares_iff, Ea). destruct (it_data i) as [[]|l|] eqn:Ed; try discriminate.
        * intros H. injection H as <-. eapply r_struct; eassumption.
        * destruct (forallb plain_variant l) eqn:Ep.
          -- assert (Hp : forall v, In v l -> mv_fields v = FUnit) by (apply plain_all, Ep).
             destruct (m_indices oc 0 l) as [ix|w0] eqn:Ei; cbn; [discriminate|]. intros H. injection H as ->.
             eapply r_index; [exact Hd|exact Ed|exact Hp|]. apply bad_index_iff; assumption.
          -- intros H. injection H as <-. assert (Hn : exists v, In v l /\ mv_fields v = FSome).
             { clear - Ep. induction l as [|v l IH]; [discriminate Ep|]. cbn in Ep. unfold plain_variant in Ep at 1. destruct (mv_fields v) eqn:Ev.
               - destruct (IH Ep) as (v' & H1 & H2). exists v'. split; [right; exact H1|exact H2].
               - exists v. split; [left; reflexivity|exact Ev]. }
             destruct Hn as (v & H1 & H2). eapply r_variant; eassumption.
        * intros H. injection H as <-. eapply r_union; eassumption.
      + intros H. injection H as <-. apply r_no_value. apply none_iff, Ea.
      + intros H. injection H as ->. apply abort_iff in Ea as (r1 & m & r2 & E1 & E2 & E3). eapply r_faulty; eassumption.
    - intros H. assert (Da : forall t, declares parse (it_attrs i) t -> attributes parse (it_attrs i) None = Accept (Some t)) by (intros t; apply declares_iff).
      destruct H as [r1 m r2 w E1 E2 E3|Hn|t Hd Ed|t Hd Ed|t l v Hd Ed Hv Hf|t l w Hd Ed Hu Hb].
      + assert (attributes parse (it_attrs i) None = Abort w) as -> by (apply abort_iff; exists r1, m, r2; auto). reflexivity.
      + apply none_iff in Hn. rewrite Hn. reflexivity.
      + rewrite (Da t Hd), Ed. reflexivity.
      + rewrite (Da t Hd), Ed. reflexivity.
      + rewrite (Da t Hd), Ed. cbn [mbind]. destruct (forallb plain_variant l) eqn:Ep; [|reflexivity].
        rewrite plain_all in Ep. rewrite (Ep v Hv) in Hf. discriminate Hf.
      + rewrite (Da t Hd), Ed. cbn [mbind]. assert (forallb plain_variant l = true) as -> by (apply plain_all; exact Hu).
        apply bad_index_iff in Hb; [|exact Hu]. rewrite Hb. reflexivity.
  Qed.
End L.

Lemma C69_accepts_iff_proof : forall (T : Type) (parse : string -> option T) oc i g,
  derive_stat parse oc i = Accept g <-> exists t, declares parse (it_attrs i) t /\ generates oc (it_data i) t g.
Proof. intros T parse oc i g. apply accepts_iff. Qed.
Lemma C69_refused_iff_proof : forall (T : Type) (parse : string -> option T) oc i w,
  derive_stat parse oc i = Abort w <-> refused parse oc i w.
Proof. intros T parse oc i w. apply refused_iff. Qed.

Lemma C69_enum_proof : forall (T : Type) (parse : string -> option T) oc i t l,
  declares parse (it_attrs i) t -> it_data i = DEnum l -> Forall simple l -> accepted (map as_variant l) ->
  exists ix, derive_stat parse oc i = Accept (GEnum t (map as_variant l) ix) /\
    ((forall k, (k < List.length l)%nat -> d_from_index (map as_variant l) ix (d_as_index ix k) = Done k) <-> gap (map as_variant l)).
Proof.
  intros T parse oc i t l Hd Ed Hs Ha. destruct (C40_indices_distinct_iff_proof oc _ Ha) as (ix & E1 & E2 & E3).
  exists ix. split; [apply accepts_iff; exists t; split; [exact Hd|]; right; exists l, ix; auto|].
  rewrite <- E3, (C40_round_trip_iff_proof (map as_variant l) ix), E2, map_length. reflexivity.
Qed.

Lemma reached_skip n p q : n <> "value" -> reached (p ++ Meta (PIdent n) [] :: q) = reached (p ++ q) \/
  (exists r, reached (p ++ Meta (PIdent n) [] :: q) = r ++ Meta (PIdent n) [] :: reached q /\ reached (p ++ q) = r ++ reached q).
Proof.
  intros Hn. induction p as [|m p IH]; cbn [app reached].
  - right. exists []. unfold complete. cbn. apply String.eqb_neq in Hn. rewrite Hn. auto.
  - destruct (complete m); [|left; reflexivity]. destruct IH as [-> |(r & E1 & E2)]; [left; reflexivity|].
    right. exists (m :: r). rewrite E1, E2. auto.
Qed.
Lemma looked_app l1 l2 : looked_at (l1 ++ l2) = looked_at l1 ++ looked_at l2.
Proof. apply flat_map_app. Qed.
Lemma C69_ignored_proof : forall (T : Type) (parse : string -> option T) oc d l1 l2,
  (forall a, a = AOther \/ a = ABare -> derive_stat parse oc (Item (l1 ++ a :: l2) d) = derive_stat parse oc (Item (l1 ++ l2) d)) /\
  (forall n p q, n <> "value" -> derive_stat parse oc (Item (l1 ++ AArgs (p ++ word n :: q) :: l2) d) = derive_stat parse oc (Item (l1 ++ AArgs (p ++ q) :: l2) d)).
Proof.
  intros T parse oc d l1 l2. unfold derive_stat. cbn [it_attrs it_data]. split.
  - intros a Ha. rewrite !attributes_is, !looked_app. destruct Ha as [-> | ->]; reflexivity.
  - intros n p q Hn. f_equal. rewrite !attributes_is, !looked_app. cbn [looked_at flat_map]. unfold word.
    destruct (reached_skip n p q Hn) as [-> |(r & -> & ->)]; [reflexivity|]. unfold outcome_of.
    rewrite !first_app, !fold_left_app. cbn [first_fault fold_left]. reflexivity.
Qed.

Lemma C69_value_given_refuted_proof : exists (a b : meta) (d : data),
  says a = Some "i32" /\ (exists s, mt_path b = PIdent "unit" /\ mt_tail b = [TEq; TStr s]) /\
  derive_stat demo_type true (Item [AArgs [b; a]] d) = Abort NoValue /\
  derive_stat demo_type true (Item [AArgs [a; b]] d) = Accept (GUnit true).
Proof.
  exists (value_is "i32"), (unit_is "m"), (DStruct FUnit). split; [reflexivity|]. split; [exists "m"; split; reflexivity|]. split; reflexivity.
Qed.
