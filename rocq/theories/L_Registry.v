From Coq Require Import ZArith List Bool String Lia.
From Verif Require Import M_Outcome M_Value M_Stat M_HashMap M_Registry S_StatMap S_Registry L_HashMap.
Import ListNotations.
Local Open Scope Z_scope.

Lemma seqb_ok : forall a b : string, String.eqb a b = true <-> a = b.
Proof. apply String.eqb_eq. Qed.
Lemma inst_eta {P} (s : inst P) : Inst (si_ty s) (si_index s) = s.
Proof. destruct s. reflexivity. Qed.
Lemma inst_eqb_iff {P} (D : distinct_vtables P) (a b : inst P) : inst_eqb a b = true <-> a = b.
Proof.
  unfold inst_eqb. rewrite andb_true_iff, !Z.eqb_eq. split.
  - intros [H1 H2]. apply D in H2. destruct a, b. cbn in *. subst. reflexivity.
  - intros ->. auto.
Qed.
Lemma inst_dec {P} (a b : inst P) : {a = b} + {a <> b}.
Proof. decide equality; [apply Z.eq_dec|apply sty_dec]. Qed.

Section L.
  Context {P : Prog} (N : StatNames P) (D : distinct_vtables P).
  Implicit Types (m : registry P) (T : sty P).
  Definition fits_list (m : registry P) T l : Prop := forall n i s, In (n, i) l -> reg_get m n = Some s -> s = Inst T i.
  Definition fun_list (l : list (string * Z)) : Prop := forall n i j, In (n, i) l -> In (n, j) l -> i = j.

  Lemma reg_one_ok m n s m' o : reg_one m n s = (m', o) ->
    (o = Done tt /\ reg_get m' n = Some s \/ o = Panics PDuplicate /\ m' = m /\ exists s', reg_get m n = Some s' /\ s' <> s) /\
    (forall k, k <> n -> reg_get m' k = reg_get m k) /\
    (forall s', reg_get m n = Some s' -> m' = m).
  Proof.
    unfold reg_one, reg_get. destruct (hget String.eqb m n) as [p|] eqn:E; intros H; injection H as <- <-.
    - split; [|split; auto]. destruct (inst_eqb p s) eqn:F.
      + left. apply (inst_eqb_iff D) in F. subst. auto.
      + right. split; [reflexivity|]. split; [reflexivity|]. exists p. split; [reflexivity|].
        intros ->. assert (inst_eqb s s = true) by (apply (inst_eqb_iff D); reflexivity). congruence.
    - split; [left; split; [reflexivity|apply hget_hput_same, seqb_ok]|]. split; [|discriminate].
      intros k Hk. apply hget_hput_other; [apply seqb_ok|assumption].
  Qed.

  (** Bindings survive, also a panic. *)
  Lemma reg_each_keeps T l : forall m n s, reg_get m n = Some s -> reg_get (fst (reg_each T m l)) n = Some s.
  Proof.
    induction l as [|[k i] l IH]; intros m n s H; cbn; [assumption|].
    destruct (reg_one m k (Inst T i)) as [m' o] eqn:E. destruct (reg_one_ok _ _ _ _ _ E) as (_ & F & G).
    assert (K : reg_get m' n = Some s).
    { destruct (string_dec n k) as [->|Hn]; [rewrite (G _ H); exact H|rewrite F by assumption; exact H]. }
    destruct o; try exact K. apply IH, K.
  Qed.
  Lemma reg_each_new T l : forall m n s, reg_get (fst (reg_each T m l)) n = Some s ->
    reg_get m n = Some s \/ exists i, In (n, i) l /\ s = Inst T i.
  Proof.
    induction l as [|[k i] l IH]; intros m n s H; cbn in *; [auto|].
    destruct (reg_one m k (Inst T i)) as [m' o] eqn:E. destruct (reg_one_ok _ _ _ _ _ E) as (A & F & G).
    assert (K : reg_get m' n = Some s -> reg_get m n = Some s \/ exists j, ((k, i) = (n, j) \/ In (n, j) l) /\ s = Inst T j).
    { destruct (string_dec n k) as [->|Hn]; [|rewrite F by assumption; auto].
      destruct A as [[_ A]|(_ & -> & _)]; [|auto]. rewrite A. intros B. injection B as <-. right. exists i. auto. }
    destruct o; try exact (K H).
    destruct (IH _ _ _ H) as [B|(j & B & ->)]; [exact (K B)|]. right. exists j. auto.
  Qed.
  Lemma reg_each_names T l : forall m n, (forall i, ~ In (n, i) l) -> reg_get (fst (reg_each T m l)) n = reg_get m n.
  Proof.
    intros m n H. destruct (reg_get m n) as [s|] eqn:E; [apply reg_each_keeps, E|].
    destruct (reg_get (fst (reg_each T m l)) n) as [s|] eqn:F; [|reflexivity].
    destruct (reg_each_new _ _ _ _ _ F) as [G|(i & G & _)]; [congruence|]. destruct (H i G).
  Qed.

  Lemma reg_each_end T l : forall m, snd (reg_each T m l) = Done tt \/ snd (reg_each T m l) = Panics PDuplicate.
  Proof.
    induction l as [|[k i] l IH]; intros m; cbn; [auto|].
    destruct (reg_one m k (Inst T i)) as [m' o] eqn:E. destruct (reg_one_ok _ _ _ _ _ E) as ([[-> _]|[-> _]] & _); [apply IH|right; reflexivity].
  Qed.
  Lemma reg_each_resolves T l : forall m, snd (reg_each T m l) = Done tt ->
    forall n i, In (n, i) l -> reg_get (fst (reg_each T m l)) n = Some (Inst T i).
  Proof.
    induction l as [|[k j] l IH]; intros m H n i Hi; cbn in *; [contradiction|].
    destruct (reg_one m k (Inst T j)) as [m' o] eqn:E. destruct (reg_one_ok _ _ _ _ _ E) as ([[-> A]|[-> _]] & _); [|discriminate].
    destruct Hi as [Hi|Hi]; [|apply IH; assumption]. injection Hi as -> ->. apply reg_each_keeps, A.
  Qed.
  Lemma reg_each_iff T l : forall m, snd (reg_each T m l) = Done tt <-> fits_list m T l /\ fun_list l.
  Proof.
    intros m. split.
    - intros H. pose proof (reg_each_resolves T l m H) as R. split.
      + intros n i s Hi Hs. apply (reg_each_keeps T l) in Hs. rewrite (R _ _ Hi) in Hs. congruence.
      + intros n i j Hi Hj. apply R in Hi. apply R in Hj. congruence.
    - revert m. induction l as [|[k j] l IH]; intros m [H1 H2]; cbn; [reflexivity|].
      destruct (reg_one m k (Inst T j)) as [m' o] eqn:E. destruct (reg_one_ok _ _ _ _ _ E) as (A & F & G).
      destruct A as [[-> A]|(-> & _ & s & A & B)]; [|destruct B; apply (H1 k j); [left; reflexivity|assumption]].
      apply IH. split.
      + intros n i s Hi Hs. destruct (string_dec n k) as [->|Hn].
        * rewrite A in Hs. injection Hs as <-. f_equal. apply (H2 k); [left; reflexivity|right; assumption].
        * rewrite F in Hs by assumption. apply (H1 n); [right; assumption|assumption].
      + intros n i i' Hi Hi'. apply (H2 n); right; assumption.
  Qed.
  (** A second registration changes nothing at all. *)
  Lemma reg_each_same T l : forall m, (forall n i, In (n, i) l -> reg_get m n = Some (Inst T i)) -> reg_each T m l = (m, Done tt).
  Proof.
    induction l as [|[k j] l IH]; intros m H; cbn; [reflexivity|].
    unfold reg_one. pose proof (H k j (or_introl eq_refl)) as K. unfold reg_get in K. rewrite K.
    assert (inst_eqb (Inst T j) (Inst T j) = true) as -> by (apply (inst_eqb_iff D); reflexivity).
    apply IH. intros n i Hi. apply H. right. assumption.
  Qed.

  Lemma replace_get T l : forall m n,
    let m' := fold_left (fun m p => fst (hput String.eqb m (fst p) (Inst T (snd p)))) l m in
    ((forall i, ~ In (n, i) l) -> reg_get m' n = reg_get m n) /\
    ((exists i, In (n, i) l) -> exists i, In (n, i) l /\ reg_get m' n = Some (Inst T i)).
  Proof.
    induction l as [|[k j] l IH]; intros m n; cbn [fold_left fst snd]; [split; [auto|intros [i []]]|].
    destruct (IH (fst (hput String.eqb m k (Inst T j))) n) as [A B]. cbv zeta in *. split.
    - intros H. rewrite A by (intros i Hi; apply (H i); right; assumption).
      apply hget_hput_other; [apply seqb_ok|]. intros ->. apply (H j). left. reflexivity.
    - intros [i Hi]. destruct (in_dec string_dec n (map fst l)) as [I|I].
      + apply in_map_iff in I. destruct I as ([n' i'] & I1 & I2). cbn in I1. subst n'.
        destruct B as (i'' & B1 & B2); [exists i'; assumption|]. exists i''. split; [right; assumption|assumption].
      + destruct Hi as [Hi|Hi]; [|destruct I; apply in_map_iff; exists (n, i); auto]. injection Hi as -> ->.
        exists i. split; [left; reflexivity|]. rewrite A.
        * apply hget_hput_same, seqb_ok.
        * intros i' Hi'. apply I, in_map_iff. exists (n, i'). auto.
  Qed.

  Lemma rops_app l1 l2 : rops_run N (l1 ++ l2) = fold_left (rop_run N) l2 (rops_run N l1).
  Proof. apply fold_left_app. Qed.
  Lemma rop_new m o n s : reg_get (rop_run N m o) n = Some s ->
    reg_get m n = Some s \/ si_ty s = called o /\ named N n s.
  Proof.
    destruct o as [T|T]; cbn.
    - intros H. destruct (reg_each_new _ _ _ _ _ H) as [A|(i & A & ->)]; [auto|]. right. split; [reflexivity|exact A].
    - intros H. destruct (replace_get T (sn_values N T) m n) as [A B]. fold (register_replace N m T) in A, B.
      destruct (in_dec string_dec n (map fst (sn_values N T))) as [I|I].
      + apply in_map_iff in I. destruct I as ([n' i'] & I1 & I2). cbn in I1. subst n'.
        destruct B as (i & B1 & B2); [exists i'; assumption|]. pose proof (eq_trans (eq_sym H) B2) as E. injection E as ->. right. split; [reflexivity|exact B1].
      + left. rewrite <- A; [assumption|]. intros i Hi. apply I, in_map_iff. exists (n, i). auto.
  Qed.
  Lemma rops_new l : forall m n s, reg_get (fold_left (rop_run N) l m) n = Some s ->
    reg_get m n = Some s \/ exists o, In o l /\ si_ty s = called o /\ named N n s.
  Proof.
    induction l as [|o l IH]; intros m n s H; cbn in *; [auto|].
    destruct (IH _ _ _ H) as [A|(o' & A & B)]; [|right; exists o'; auto].
    destruct (rop_new _ _ _ _ A) as [C|C]; [auto|]. right. exists o. auto.
  Qed.
  Lemma rops_keep l : forall m n s, (forall T, In (RReplace T) l -> forall i, ~ In (n, i) (sn_values N T)) ->
    reg_get m n = Some s -> reg_get (fold_left (rop_run N) l m) n = Some s.
  Proof.
    induction l as [|o l IH]; intros m n s F H; cbn; [assumption|]. apply IH; [intros T HT; apply F; right; exact HT|].
    destruct o as [T|T]; [apply reg_each_keeps, H|]. cbn.
    destruct (replace_get T (sn_values N T) m n) as [A _]. refine (eq_trans (A _) H). apply F. left. reflexivity.
  Qed.
End L.
