(** Proofs about references into pairs. *)
From Coq Require Import ZArith List Bool Arith Lia.
From Verif Require Import M_Outcome M_Value M_Stat M_Pair M_Borrow S_StatMap S_Pair S_Demo S_Borrow L_Demo L_PairProofs.
Import ListNotations.

Section B.
  Variable P : Prog.
  Variable D : StatTypes P.
  Hypothesis Hd : distinct_vtables P.
  Hypothesis Hi : index_sound D.

  Definition agrees (k : known P) (st : locals P) : Prop :=
    (forall x b, l_pairs st x = Some b -> pair_ok (b_pair b)) /\
    (forall x, k_here k x = true -> exists b, l_pairs st x = Some b) /\
    (forall r x s q, k_refs k r = Some (x, s) -> l_refs st r = Some q ->
       f_at q = x /\ exists b, l_pairs st x = Some b /\ b_lent b = Some (f_tag q) /\ si_ty (p_stat (b_pair b)) = s).

  Lemma agrees_less k k' st : less k k' -> agrees k st -> agrees k' st.
  Proof.
    intros [L1 L2] (A & B & C). split; [exact A|]. split; [intros x H; apply B, L1, H|].
    intros r x s q H. apply C, L2, H.
  Qed.
  Lemma upd_same {A} (f : nat -> A) x a : upd f x a x = a.
  Proof. unfold upd. rewrite Nat.eqb_refl. reflexivity. Qed.
  Lemma upd_other {A} (f : nat -> A) x y a : x <> y -> upd f x a y = f y.
  Proof. intros N. unfold upd. destruct (Nat.eqb_spec x y); [contradiction|reflexivity]. Qed.
  Lemma ends_bound (k : known P) x r y s : k_refs (ends Bound x k) r = Some (y, s) -> k_refs k r = Some (y, s) /\ x <> y.
  Proof.
    cbn. destruct (k_refs k r) as [[z t]|]; [|discriminate]. destruct (Nat.eqb_spec x z); [discriminate|].
    intros E. injection E as <- <-. auto.
  Qed.

  Lemma valid_not_ub n m : validate n m <> UB.
  Proof. unfold validate. destruct (_ || _); [destruct (_ <? _)%Z|]; discriminate. Qed.
  Lemma cast_ok p s : pair_ok p -> pair_cast D p s <> UB.
  Proof.
    intros Hp. unfold pair_cast, validate_stat. pose proof (valid_not_ub (s_size D s) (s_align D s)) as Hv.
    destruct (validate _ _); cbn [obind]; try congruence.
    destruct (Z.eqb_spec (vt_addr P (si_ty (p_stat p))) (vt_addr P s)) as [e|e]; [|discriminate].
    specialize (Hi s (si_index (p_stat p))). destruct (s_from_index _ _ _); cbn [obind]; try congruence.
    unfold cast_val. destruct (vty_dec P (b_ty (p_buf p)) (vt_value P s)) as [e'|e']; cbn [obind]; [discriminate|].
    exfalso. apply e'. rewrite Hp. f_equal. apply Hd, e.
  Qed.
  Lemma cast_ty p s r : pair_cast D p s = Done (Some r) -> si_ty (p_stat p) = s.
  Proof.
    unfold pair_cast. destruct (validate_stat _ _); cbn [obind]; try congruence.
    destruct (Z.eqb_spec (vt_addr P (si_ty (p_stat p))) (vt_addr P s)) as [e|e]; [|discriminate]. intros _. apply Hd, e.
  Qed.
  Lemma is_ok p o : pair_ok p -> pair_is_then_cast D p o <> UB.
  Proof.
    intros Hp. unfold pair_is_then_cast, validate_stat. pose proof (valid_not_ub (s_size D (si_ty o)) (s_align D (si_ty o))) as Hv.
    destruct (validate _ _); cbn [obind]; try congruence.
    destruct (inst_eqb (p_stat p) o) eqn:E; [|discriminate].
    unfold inst_eqb in E. rewrite andb_true_iff, !Z.eqb_eq in E. destruct E as [_ E].
    unfold cast_val. destruct (vty_dec P (b_ty (p_buf p)) (vt_value P (si_ty o))) as [e'|e']; cbn [obind]; [discriminate|].
    exfalso. apply e'. rewrite Hp. f_equal. apply Hd, E.
  Qed.
  Lemma is_ty p o r : pair_is_then_cast D p o = Done (Some r) -> si_ty (p_stat p) = si_ty o.
  Proof.
    unfold pair_is_then_cast. destruct (validate_stat _ _); cbn [obind]; try congruence.
    destruct (inst_eqb (p_stat p) o) eqn:E; [|discriminate]. intros _.
    unfold inst_eqb in E. rewrite andb_true_iff, !Z.eqb_eq in E. apply Hd, E.
  Qed.
  Lemma into_ok p s : pair_ok p -> pair_into_result D p s <> UB.
  Proof.
    intros Hp. unfold pair_into_result, validate_stat. pose proof (valid_not_ub (s_size D s) (s_align D s)) as Hv.
    destruct (validate _ _); cbn [obind]; try congruence.
    destruct (Z.eqb_spec (vt_addr P (si_ty (p_stat p))) (vt_addr P s)) as [e|e]; [|discriminate].
    unfold buf_into, buf_ref, validate_ty. pose proof (valid_not_ub (v_size P (vt_value P s)) (v_align P (vt_value P s))) as Hw.
    destruct (validate _ _); cbn [obind]; try congruence.
    unfold cast_val. destruct (vty_dec P (b_ty (p_buf p)) (vt_value P s)) as [e'|e']; cbn [obind]; [discriminate|].
    exfalso. apply e'. rewrite Hp. f_equal. apply Hd, e.
  Qed.
  Lemma new_ok s v : pair_new P s v <> UB /\ forall p, pair_new P s v = Done p -> pair_ok p.
  Proof.
    unfold pair_new, buf_from, validate_ty.
    pose proof (valid_not_ub (v_size P (vt_value P (si_ty s))) (v_align P (vt_value P (si_ty s)))) as Hv.
    destruct (validate _ _); cbn [obind]; split; try congruence. intros p' E. injection E as <-. reflexivity.
  Qed.

  (** The pair in [x] was accessed by its owner: the references borrowed from it are ended. *)
  Lemma agrees_set k st x p : agrees k st -> pair_ok p ->
    agrees (here (ends Bound x k) x true) (set_pair st x (Some (Place p None))).
  Proof.
    intros (A & B & C) Hp. split; [|split].
    - intros y b. cbn. unfold upd. destruct (Nat.eqb_spec x y); [intros E; injection E as <-; exact Hp|apply A].
    - intros y. cbn. unfold upd. destruct (Nat.eqb_spec x y); [eauto|apply B].
    - intros r y s q H E. cbn [l_refs set_pair] in E. apply ends_bound in H as [H N].
      destruct (C r y s q H E) as [<- (b & E1 & E2)]. split; [reflexivity|]. exists b. cbn. rewrite upd_other by exact N. auto.
  Qed.
  Lemma agrees_gone k st x : agrees k st -> agrees (here (ends Bound x k) x false) (set_pair st x None).
  Proof.
    intros (A & B & C). split; [|split].
    - intros y b. cbn. unfold upd. destruct (Nat.eqb_spec x y); [discriminate|apply A].
    - intros y. cbn. unfold upd. destruct (Nat.eqb_spec x y); [discriminate|apply B].
    - intros r y s q H E. cbn [l_refs set_pair] in E. apply ends_bound in H as [H N].
      destruct (C r y s q H E) as [<- (b & E1 & E2)]. split; [reflexivity|]. exists b. cbn. rewrite upd_other by exact N. auto.
  Qed.
  Lemma agrees_lend k st r x s p : agrees k st -> k_here k x = true -> pair_ok p -> si_ty (p_stat p) = s ->
    agrees (borrows (ends Bound x k) r x s) (lend st r x p).
  Proof.
    intros (A & B & C) Hx Hp Hs. split; [|split].
    - intros y b. cbn. unfold upd. destruct (Nat.eqb_spec x y); [intros E; injection E as <-; exact Hp|apply A].
    - intros y. cbn. unfold upd. destruct (Nat.eqb_spec x y); [eauto|apply B].
    - intros r' y t q H E. cbn in H, E. unfold upd in H, E. destruct (Nat.eqb_spec r r') as [<-|N].
      + injection H as <- <-. injection E as <-. split; [reflexivity|]. eexists. cbn. rewrite upd_same. auto.
      + apply (ends_bound k x r' y t) in H as [H N']. destruct (C r' y t q H E) as [<- (b & E1 & E2)].
        split; [reflexivity|]. exists b. cbn. rewrite upd_other by exact N'. auto.
  Qed.
  Lemma agrees_owned k st r x s p : agrees k st -> k_here k x = true -> pair_ok p ->
    agrees (borrows (ends Bound x k) r x s) (owned st r x p).
  Proof.
    intros (A & B & C) Hx Hp. split; [|split].
    - intros y b. cbn. unfold upd. destruct (Nat.eqb_spec x y); [intros E; injection E as <-; exact Hp|apply A].
    - intros y. cbn. unfold upd. destruct (Nat.eqb_spec x y); [eauto|apply B].
    - intros r' y t q H E. cbn in H, E. unfold upd in H, E. destruct (Nat.eqb_spec r r') as [<-|N]; [discriminate|].
      apply (ends_bound k x r' y t) in H as [H N']. destruct (C r' y t q H E) as [<- (b & E1 & E2)].
      split; [reflexivity|]. exists b. cbn. rewrite upd_other by exact N'. auto.
  Qed.

  Definition fine (k' : known P) (r : outcome (locals P)) : Prop := r <> UB /\ forall st', r = Done st' -> agrees k' st'.
  Lemma fine_done k st : agrees k st -> fine k (Done st).
  Proof. intros A. split; [discriminate|]. intros st' E. injection E as <-. exact A. Qed.

  Lemma sound k c k' : accepted Bound k c k' -> closures_sound c ->
    forall st r, agrees k st -> exec D c st r -> fine k' r.
  Proof.
    induction 1 as [k x s v|k x y Hx|k x s Hx|k x Hx|k x Hx|k q x s Hx|k q x o Hx|k q s f x Hq|k|k k1 k2 a b _ IHa _ IHb|k k1 a b _ IHa _ IHb|k a _ IHa|k k1 k2 k3 c L _ IH L'];
      intros Hc st r A E.
    - inversion E; subst; cbn [atom]. destruct (new_ok s v) as [N1 N2]. destruct (pair_new P s v) as [p| | |]; cbn [obind];
        try (split; congruence). apply fine_done, agrees_set; auto.
    - inversion E; subst; cbn [atom]. destruct (proj1 (proj2 A) x Hx) as [b Eb]. rewrite Eb.
      apply fine_done. pose proof (proj1 A x b Eb) as Hb.
      assert (A1 := agrees_set _ _ y _ (agrees_gone k st x A) Hb). revert A1. apply agrees_less.
      split; [intros z; cbn; unfold upd; destruct (Nat.eqb y z), (Nat.eqb x z); auto|]. cbn. auto.
    - inversion E; subst; cbn [atom]. destruct (proj1 (proj2 A) x Hx) as [b Eb]. rewrite Eb.
      pose proof (into_ok (b_pair b) s (proj1 A x b Eb)) as N. destruct (pair_into_result D (b_pair b) s); cbn [obind];
        try (split; congruence). apply fine_done, agrees_gone, A.
    - inversion E; subst; cbn [atom]. destruct (proj1 (proj2 A) x Hx) as [b Eb]. rewrite Eb. apply fine_done, agrees_gone, A.
    - inversion E; subst; cbn [atom]. destruct (proj1 (proj2 A) x Hx) as [b Eb]. rewrite Eb. apply fine_done.
      assert (A1 := agrees_set k st x _ A (proj1 A x b Eb)). revert A1. apply agrees_less.
      split; [intros z; cbn; unfold upd; destruct (Nat.eqb_spec x z); [auto|auto]|]. cbn. auto.
    - inversion E; subst; cbn [atom]. destruct (proj1 (proj2 A) x Hx) as [b Eb]. rewrite Eb.
      pose proof (proj1 A x b Eb) as Hb. pose proof (cast_ok (b_pair b) s Hb) as N. pose proof (cast_ty (b_pair b) s) as Ht.
      destruct (pair_cast D (b_pair b) s) as [[w|]| | |]; cbn [obind]; try (split; congruence).
      + apply fine_done, agrees_lend; auto. apply (Ht w eq_refl).
      + apply fine_done, agrees_owned; auto.
    - inversion E; subst; cbn [atom]. destruct (proj1 (proj2 A) x Hx) as [b Eb]. rewrite Eb.
      pose proof (proj1 A x b Eb) as Hb. pose proof (is_ok (b_pair b) o Hb) as N. pose proof (is_ty (b_pair b) o) as Ht.
      destruct (pair_is_then_cast D (b_pair b) o) as [[w|]| | |]; cbn [obind]; try (split; congruence).
      + apply fine_done, agrees_lend; auto. apply (Ht w eq_refl).
      + apply fine_done, agrees_owned; auto.
    - inversion E; subst; cbn [atom]. destruct (l_refs st q) as [p|] eqn:Eq; [|apply fine_done, A].
      destruct A as (A1 & A2 & A3). destruct (A3 q x s p Hq Eq) as [<- (b & Eb & El & Es)]. rewrite Eb, El, Nat.eqb_refl.
      pose proof (A1 _ b Eb) as Hb. unfold cast_val. destruct (vty_dec P (b_ty (p_buf (b_pair b))) (vt_value P s)) as [e|e].
      2:{ exfalso. apply e. rewrite Hb, Es. reflexivity. }
      cbn [obind]. cbn in Hc. specialize (Hc (eq_rect _ (fun t => val (VT P t)) (b_val (p_buf (b_pair b))) _ e)).
      destruct (f _) as [v'| | |]; cbn [obind]; try (split; congruence). apply fine_done. split; [|split].
      + intros y b'. cbn. unfold upd. destruct (Nat.eqb_spec (f_at p) y); [|apply A1]. intros E'. injection E' as <-.
        unfold pair_ok. cbn. rewrite Es. reflexivity.
      + intros y Hy. cbn. unfold upd. destruct (Nat.eqb_spec (f_at p) y); [eauto|apply A2, Hy].
      + intros r' y t q' H' E'. cbn [l_refs set_pair] in E'. destruct (A3 r' y t q' H' E') as [<- (b' & B1 & B2 & B3)].
        split; [reflexivity|]. cbn. unfold upd. destruct (Nat.eqb_spec (f_at p) (f_at q')) as [e'|e']; [|eauto].
        eexists. split; [reflexivity|]. cbn. rewrite e', B1 in Eb. injection Eb as ->. rewrite <- El. auto.
    - inversion E; subst. apply fine_done, A.
    - destruct Hc as [Ha Hb]. inversion E; subst.
      + match goal with X : is_atom _ |- _ => destruct X end.
      + match goal with X : exec _ a _ _ |- _ => destruct (IHa Ha st _ A X) as [_ F] end. eapply (IHb Hb); eauto.
      + match goal with X : exec _ a _ _ |- _ => destruct (IHa Ha st _ A X) as [F _] end. split; [exact F|].
        intros st' E'. exfalso. match goal with X : forall st', _ <> Done st' |- _ => exact (X st' E') end.
    - destruct Hc as [Ha Hb]. inversion E; subst; eauto. match goal with X : is_atom _ |- _ => destruct X end.
    - cbn in Hc. remember (KLoop a) as c eqn:Ec. revert Ec A. clear - IHa Hc E.
      induction E; intros Ec A; try discriminate; try (injection Ec as ->).
      + subst. destruct H.
      + apply fine_done, A.
      + apply IHE2; auto. destruct (IHa Hc st _ A E1) as [_ F]. apply F. reflexivity.
      + destruct (IHa Hc st _ A E) as [F _]. split; [exact F|]. intros st' E'. exfalso. exact (H st' E').
    - destruct (IH Hc st r (agrees_less _ _ _ L A) E) as [F1 F2]. split; [exact F1|]. intros st' E'.
      apply (agrees_less _ _ _ L'), F2, E'.
  Qed.
End B.

Lemma less_refl {P} (k : known P) : less k k.
Proof. split; auto. Qed.
Lemma less_ends {P} (k : known P) x g : less k (ends g x k).
Proof.
  destruct g; [|apply less_refl]. split; [auto|]. intros r [y s] H. cbn in H.
  destruct (k_refs k r) as [[z t]|]; [|discriminate]. destruct (Nat.eqb x z); [discriminate|exact H].
Qed.
Lemma less_trans {P} (a b c : known P) : less a b -> less b c -> less a c.
Proof. intros [A1 A2] [B1 B2]. split; auto. Qed.
Lemma less_here {P} (a b : known P) x v : less a b -> less (here a x v) (here b x v).
Proof. intros [A B]. split; [|exact B]. intros y. cbn. unfold upd. destruct (Nat.eqb x y); auto. Qed.
Lemma less_borrows {P} (a b : known P) r x s : less a b -> less (borrows a r x s) (borrows b r x s).
Proof. intros [A B]. split; [exact A|]. intros q z. cbn. unfold upd. destruct (Nat.eqb r q); auto. Qed.

Lemma C64_bound_sound_proof :
  forall (P : Prog) (D : StatTypes P) (c : cmd P) (k : known P),
  distinct_vtables P -> index_sound D -> closures_sound c ->
  accepted Bound nothing c k -> forall r, exec D c start r -> r <> UB.
Proof.
  intros P D c k Hd Hi Hc H r E. apply (sound P D Hd Hi nothing c k H Hc start r); [|exact E].
  split; [discriminate|]. split; [discriminate|]. intros r0 x s q H0. discriminate.
Qed.

Lemma C64_bound_accepts_less_proof :
  forall (P : Prog) (c : cmd P) (k k' : known P), accepted Bound k c k' -> accepted Unbound k c k'.
Proof.
  intros P c k k' H. induction H.
  - apply ALess with (k1 := k) (k2 := here k x true); [apply less_refl|constructor|apply less_here, less_ends].
  - apply ALess with (k1 := k) (k2 := here (here k x false) y true); [apply less_refl|apply (AMove P Unbound); assumption|].
    apply less_here, less_here. eapply less_trans; apply less_ends.
  - apply ALess with (k1 := k) (k2 := here k x false); [apply less_refl|apply (AInto P Unbound); assumption|apply less_here, less_ends].
  - apply ALess with (k1 := k) (k2 := here k x false); [apply less_refl|apply (ADrop P Unbound); assumption|apply less_here, less_ends].
  - apply ALess with (k1 := k) (k2 := k); [apply less_refl|apply (AShow P Unbound); assumption|apply less_ends].
  - apply ALess with (k1 := k) (k2 := borrows k r x s); [apply less_refl|apply (ACast P Unbound); assumption|apply less_borrows, less_ends].
  - apply ALess with (k1 := k) (k2 := borrows k r x (si_ty o)); [apply less_refl|apply (AIsCast P Unbound); assumption|apply less_borrows, less_ends].
  - econstructor; eassumption.
  - constructor.
  - econstructor; eassumption.
  - constructor; assumption.
  - constructor; assumption.
  - econstructor; eassumption.
Qed.

Lemma C64_match_stat_proof :
  forall (P : Prog) (k k' : known P) (r x : nat) (l : list (varm P)), k_here k x = true ->
  (forall a, In a l -> accepted Bound (borrows (ends Bound x k) r x (varm_ty a)) (varm_body a) k') ->
  less (Known P (k_here k) (fun q => if Nat.eqb r q then None else k_refs (ends Bound x k) q)) k' ->
  accepted Bound k (match_var r x l) k'.
Proof.
  intros P k k' r x l Hx Hl Hk.
  assert (G : forall K, k_here K x = true ->
    (forall s, less (borrows (ends Bound x K) r x s) (borrows (ends Bound x k) r x s)) -> less K k' ->
    accepted Bound K (match_var r x l) k').
  { clear Hx. induction l as [|a l IH]; intros K Hx HK HKk; cbn [match_var].
    - apply ALess with (k1 := K) (k2 := K); [apply less_refl|constructor|exact HKk].
    - set (s := varm_ty a). apply ASeq with (k' := borrows (ends Bound x K) r x s).
      + destruct a; [apply (ACast P Bound); exact Hx|apply (AIsCast P Bound); exact Hx].
      + apply AIf.
        * apply ALess with (k1 := borrows (ends Bound x k) r x s) (k2 := k'); [apply HK|apply Hl; left; reflexivity|apply less_refl].
        * apply IH; [intros b Hb; apply Hl; right; exact Hb|exact Hx| |].
          -- intros t. eapply less_trans; [|apply HK]. split; [auto|]. intros q z. cbn. unfold upd.
             destruct (Nat.eqb_spec r q); [auto|]. destruct (k_refs K q) as [[y u]|]; [|discriminate].
             destruct (Nat.eqb_spec x y) as [E|E]; [discriminate|]. intros H. injection H as <-.
             destruct (Nat.eqb_spec x y); [contradiction|reflexivity].
          -- eapply less_trans; [|exact Hk]. destruct (HK s) as [H1 H2]. split; [exact H1|].
             intros q z. specialize (H2 q z). cbn in H2 |- *. unfold upd in *. destruct (Nat.eqb_spec r q); [discriminate|]. exact H2. }
  apply G; [exact Hx|intros s; apply less_refl|]. revert Hk. apply less_trans.
  split; [auto|]. intros q z. cbn [k_refs]. destruct (Nat.eqb r q); [discriminate|]. apply (less_ends k x Bound).
Qed.

Ltac step := first [eapply ESeq; [apply EAtom; exact I|]|apply EAtom; exact I].
Lemma exec_done {P} (D : StatTypes P) c st st' : is_atom c -> atom D c st = Done st' -> exec D c st (Done st').
Proof. intros A <-. apply EAtom, A. Qed.
Lemma exec_ub {P} (D : StatTypes P) c st : is_atom c -> atom D c st = UB -> exec D c st UB.
Proof. intros A <-. apply EAtom, A. Qed.
Ltac go := repeat (eapply ESeq; [eapply exec_done; [exact I|reflexivity]|]); eapply exec_ub; [exact I|reflexivity].
Ltac acc := repeat (eapply ASeq; [constructor; try reflexivity|]); econstructor; reflexivity.
Lemma demo_sound : index_sound demoT.
Proof. intros s i. cbn. destruct (_ && _); discriminate. Qed.

Lemma add_not_ub (n : Z) (v : M_Types.quad Z Z) : sv_add (VT demo VNum) v n <> UB.
Proof. cbn. unfold M_Types.q_add, M_Ints.i_add, M_Ints.i_norm, i32. cbn [M_Ints.i_flav M_Ints.i_ty]. unfold M_Ints.chk. destruct (M_Ints.in_range _ _); discriminate. Qed.
Lemma C64_programs_proof :
  Forall (fun c : cmd demo => closures_sound c /\ (exists k, accepted Unbound nothing c k) /\ exec demoT c start UB)
    [two_refs; after_into; after_scope; after_replace].
Proof.
  repeat (apply Forall_cons; [split; [cbn; repeat split; intros v; apply add_not_ub|split; [eexists; acc|go]]|]). apply Forall_nil.
Qed.
Lemma C64_references_refuted_proof :
  ~ (forall (P : Prog) (D : StatTypes P) (c : cmd P) (k : known P),
     distinct_vtables P -> index_sound D -> closures_sound c ->
     accepted Unbound nothing c k -> forall r, exec D c start r -> r <> UB).
Proof.
  intros H. pose proof C64_programs_proof as F. apply Forall_inv in F. destruct F as (A & [k B] & C).
  exact (H demo demoT two_refs k demo_distinct demo_sound A B UB C eq_refl).
Qed.
Lemma C64_case_proof : exists k st,
  closures_sound in_turn /\ accepted Bound nothing in_turn k /\ exec demoT in_turn start (Done st) /\ base_of st 1 = Done 6%Z.
Proof.
  eexists. eexists. split; [cbn; repeat split; intros v; apply add_not_ub|]. split; [|split].
  - unfold in_turn. eapply ASeq; [apply ANew|]. eapply ASeq; [apply ANew|].
    set (k := here _ 1 true). eapply ASeq with (k' := k).
    + apply ALoop. eapply ALess; [apply less_refl| |].
      * eapply ASeq; [apply ACast; reflexivity|]. eapply ASeq; [apply ACast; reflexivity|].
        eapply ASeq; [eapply AUpd; reflexivity|]. eapply ASeq; [eapply AUpd; reflexivity|]. apply AShow. reflexivity.
      * split; [intros x; exact (fun H => H)|]. intros r q H. discriminate H.
    + eapply ASeq with (k' := k); [|apply AInto; reflexivity].
      apply C64_match_stat_proof; [reflexivity| |].
      * intros a [<-|[<-|[]]].
        -- eapply ALess; [apply less_refl|apply ASkip|]. split; [intros x; exact (fun H => H)|]. intros r q H. discriminate H.
        -- eapply ALess; [apply less_refl|eapply AUpd; reflexivity|]. split; [intros x; exact (fun H => H)|]. intros r q H. discriminate H.
      * split; [intros x; exact (fun H => H)|]. intros r q H. discriminate H.
  - unfold in_turn. do 2 (eapply ESeq; [eapply exec_done; [exact I|reflexivity]|]).
    eapply ESeq.
    + do 2 (eapply ELoop; [do 4 (eapply ESeq; [eapply exec_done; [exact I|reflexivity]|]); eapply exec_done; [exact I|reflexivity]|]).
      apply ELoopEnd.
    + eapply ESeq.
      * cbn [match_var varm_cast varm_body]. eapply ESeq; [eapply exec_done; [exact I|reflexivity]|]. apply EIfR.
        eapply ESeq; [eapply exec_done; [exact I|reflexivity]|]. apply EIfL. eapply exec_done; [exact I|reflexivity].
      * eapply exec_done; [exact I|reflexivity].
  - reflexivity.
Qed.
