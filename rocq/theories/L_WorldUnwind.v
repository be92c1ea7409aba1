(** Worlds whose calls may panic. *)
From Coq Require Import ZArith List Bool String Lia.
From Verif Require Import M_Outcome M_Value M_Types M_Qualifier M_Search M_Stat M_StatMap M_Unwind M_HashMap M_Pair M_Defaults M_Registry M_Querier M_World M_WorldUnwind
  S_Pair S_StatMap S_Defaults S_Querier S_Demo S_DemoDefaults S_DemoQuery S_World S_Registry S_WorldUnwind L_StatMap3 L_HashMap L_Demo L_Defaults L_Outcome L_Querier L_Querier2 L_Querier3 L_Querier4 L_DemoQuery
  L_DefaultsProofs L_CacheProofs L_World L_RegistryProofs.
Import ListNotations.

Section D.
  Context {P : Prog} (o_size o_align : vty P -> Z).
  Hypothesis Hd : distinct_vtables P.
  Notation tyof s := (vt_value P (si_ty s)).
  Let eqb_ok := inst_eqb_ok P Hd.
  Implicit Types d : defaults P.

  (** One call on the table, its panic caught. *)
  Definition d_caught d (c : dcall P * residue P) : outcome (defaults P) :=
    match d_step o_size o_align d (fst c) with
    | Done r => Done (fst r)
    | Panics _ => Done (d_unwound d (fst c) (snd c))
    | UB => UB
    | NoFuel => NoFuel
    end.
  Fixpoint d_caughts d (l : list (dcall P * residue P)) : outcome (defaults P) :=
    match l with [] => Done d | c :: l' => let! d' := d_caught d c in d_caughts d' l' end.

  Lemma fits_dec (s : inst P) : fits s \/ (~ fits s /\ exists p, validate_ty P (tyof s) = Panics p).
  Proof.
    unfold fits, validate_ty. pose proof (validate_unit (v_size P (tyof s)) (v_align P (tyof s))) as H.
    destruct (validate _ _) as [[]|p| |]; try contradiction; [left; reflexivity|right]. split; [discriminate|eauto].
  Qed.
  Lemma caught_typed d c d' : dtyped d -> dfits d -> ready1 d (fst c) -> d_caught d c = Done d' ->
    dtyped d' /\ dfits d' /\ dcaught (dabs d) c (dabs d') /\
    (fits (call_stat (fst c)) -> hget inst_eqb d' (call_stat (fst c)) <> None) /\ (forall s, s <> call_stat (fst c) -> hget inst_eqb d' s = hget inst_eqb d s).
  Proof.
    destruct c as [c u]. unfold d_caught, dcaught. cbn [fst snd]. intros Ht Hf Hr.
    destruct c as [s v|s op]; cbn [d_step call_stat ready1 d_unwound] in *.
    - unfold d_insert, buf_from. destruct (fits_dec s) as [F|[F [p E]]].
      + pose proof F as F'. unfold fits in F'. rewrite F'. cbn [obind].
        pose proof (hget_hput_same inst_eqb eqb_ok d s (DVal (Buf (tyof s) v))) as H1.
        pose proof (hget_hput_other inst_eqb eqb_ok d s (DVal (Buf (tyof s) v))) as H2.
        destruct (hput inst_eqb d s (DVal (Buf (tyof s) v))) as [d1 old]. cbn in H1, H2. intros E. injection E as <-.
        split; [|split; [|split; [|split; [congruence|exact H2]]]].
        * intros s' b Hb. destruct (eqb_dec inst_eqb eqb_ok s' s) as [-> |Hn].
          -- rewrite H1 in Hb. injection Hb as <-. exists v. reflexivity.
          -- rewrite H2 in Hb by exact Hn. apply Ht, Hb.
        * intros s' b Hb. destruct (eqb_dec inst_eqb eqb_ok s' s) as [-> |Hn]; [exact F|]. rewrite H2 in Hb by exact Hn. apply (Hf _ _ Hb).
        * left. split; [exact F|]. split; [apply dabs_at, H1|]. intros s' Hn. apply dabs_eq, H2, Hn.
      + rewrite E. cbn [obind]. intros H. injection H as <-. split; [exact Ht|]. split; [exact Hf|]. split; [|split; [contradiction|reflexivity]].
        right. split; [exact F|reflexivity].
    - destruct (hget inst_eqb d s) as [b|] eqn:Eb; [|contradiction].
      pose proof (Hf _ _ Eb) as F. pose proof F as F'. unfold fits in F'.
      destruct (Ht s b Eb) as [v ->]. unfold d_patch. rewrite Eb. cbn [d_cast]. unfold buf_ref. rewrite F'. cbn [obind]. rewrite cast_val_same. cbn [obind].
      assert (G : forall w d', hset inst_eqb d s (DVal (Buf (tyof s) w)) = d' ->
        dtyped d' /\ dfits d' /\ dbinds (dabs d) (dabs d') s w /\ hget inst_eqb d' s <> None /\ (forall s0, s0 <> s -> hget inst_eqb d' s0 = hget inst_eqb d s0)).
      { intros w d1 <-.
        pose proof (hget_hset_same inst_eqb d s (DVal (Buf (tyof s) w)) _ Eb) as H1.
        pose proof (hget_hset_other inst_eqb eqb_ok d s (DVal (Buf (tyof s) w))) as H2.
        split; [|split; [|split; [|split; [congruence|exact H2]]]].
        - intros s' b Hb. destruct (eqb_dec inst_eqb eqb_ok s' s) as [-> |Hn].
          + rewrite H1 in Hb. injection Hb as <-. exists w. reflexivity.
          + rewrite H2 in Hb by exact Hn. apply Ht, Hb.
        - intros s' b Hb. destruct (eqb_dec inst_eqb eqb_ok s' s) as [-> |Hn]; [exact F|]. rewrite H2 in Hb by exact Hn. apply (Hf _ _ Hb).
        - split; [apply dabs_at, H1|]. intros s' Hn. apply dabs_eq, H2, Hn. }
      destruct (write_to op v) as [v'|p| |] eqn:Ew; cbn [obind]; try discriminate; intros H; injection H as H;
        destruct (G _ _ H) as (G1 & G2 & G3 & G4 & G5); (split; [exact G1|]; split; [exact G2|]; split; [|split; [intros _; exact G4|exact G5]]);
        exists v; (split; [apply dabs_at, Eb|]); [left; eauto|right; split; [eauto|exact G3]].
  Qed.
  Lemma caught_no_ub d c : dtyped d -> ready1 d (fst c) -> sound_call (fst c) -> d_caught d c <> UB.
  Proof.
    intros Ht Hr Hs. unfold d_caught. pose proof (step_no_ub o_size o_align d (fst c) Ht Hr Hs) as H. destruct (d_step _ _ _ _); congruence.
  Qed.

  Definition backed_in d (l : list (dcall P)) : Prop :=
    forall l1 s op l2, l = l1 ++ DPatch s op :: l2 -> hget inst_eqb d s <> None \/ fits s /\ exists c, In c l1 /\ is_insert c /\ call_stat c = s.
  Lemma backed_hd d c l : backed_in d (c :: l) -> ready1 d c.
  Proof.
    intros H. destruct c as [s v|s op]; cbn; [exact I|]. destruct (H [] s op l eq_refl) as [H1|(_ & c & [] & _)]. exact H1.
  Qed.
  Lemma backed_tl d d' c l : backed_in d (c :: l) -> (fits (call_stat c) -> hget inst_eqb d' (call_stat c) <> None) -> dfits d ->
    (forall s, s <> call_stat c -> hget inst_eqb d' s = hget inst_eqb d s) -> backed_in d' l.
  Proof.
    intros H Hc Hf Ho l1 s op l2 ->. destruct (eqb_dec inst_eqb eqb_ok s (call_stat c)) as [-> |Hn].
    - left. apply Hc. destruct (H (c :: l1) (call_stat c) op l2 eq_refl) as [H1|(H1 & _)]; [|exact H1].
      destruct (hget inst_eqb d (call_stat c)) eqn:E; [exact (Hf _ _ E)|contradiction].
    - destruct (H (c :: l1) s op l2 eq_refl) as [H1|(F & c' & [Hin|Hin] & Hi & Hs)].
      + left. rewrite Ho by exact Hn. exact H1.
      + subst. congruence.
      + right. split; [exact F|]. exists c'. repeat split; assumption.
  Qed.
  Lemma caughts_typed l : forall d d', dtyped d -> dfits d -> backed_in d (map fst l) -> d_caughts d l = Done d' ->
    dtyped d' /\ dfits d' /\ dcaught_run (dabs d) l (dabs d').
  Proof.
    induction l as [|c l IH]; intros d d' Ht Hf Hr; cbn [d_caughts].
    - intros E. injection E as <-. split; [exact Ht|]. split; [exact Hf|constructor].
    - destruct (d_caught d c) as [d1| | |] eqn:E1; cbn [obind]; try discriminate. intros E2.
      destruct (caught_typed d c d1 Ht Hf (backed_hd _ _ _ Hr) E1) as (T1 & F1 & S1 & Hc & Ho).
      destruct (IH d1 d' T1 F1 (backed_tl _ _ _ _ Hr Hc Hf Ho) E2) as (T2 & F2 & S2).
      split; [exact T2|]. split; [exact F2|]. econstructor; eassumption.
  Qed.
  Lemma caughts_present l : forall d d', dtyped d -> dfits d -> backed_in d (map fst l) -> d_caughts d l = Done d' ->
    forall s, fits s -> hget inst_eqb d s <> None \/ (exists c, In c (map fst l) /\ is_insert c /\ call_stat c = s) -> hget inst_eqb d' s <> None.
  Proof.
    induction l as [|c l IH]; intros d d' Ht Hf Hr; cbn [d_caughts].
    - intros E s Fs [H|(c & [] & _)]. injection E as <-. exact H.
    - destruct (d_caught d c) as [d1| | |] eqn:E1; cbn [obind]; try discriminate. intros E2 s Fs H.
      destruct (caught_typed d c d1 Ht Hf (backed_hd _ _ _ Hr) E1) as (T1 & F1 & S1 & Hc & Ho).
      apply (IH d1 d' T1 F1 (backed_tl _ _ _ _ Hr Hc Hf Ho) E2 s Fs).
      destruct (eqb_dec inst_eqb eqb_ok s (call_stat (fst c))) as [-> |Hn]; [left; apply Hc, Fs|].
      destruct H as [H|(c' & [<-|Hin] & Hi & Hs)]; [left; rewrite Ho by exact Hn; exact H|congruence|right; eauto].
  Qed.
  Lemma caughts_nodup l : forall d d', NoDup (map fst d) -> d_caughts d l = Done d' -> NoDup (map fst d').
  Proof.
    induction l as [|c l IH]; intros d d' Hn; cbn [d_caughts]; [intros E; injection E as <-; exact Hn|].
    destruct (d_caught d c) as [d1| | |] eqn:E1; cbn [obind]; try discriminate. apply IH. unfold d_caught in E1.
    destruct (d_step o_size o_align d (fst c)) as [[d2 lost]|p| |] eqn:E; try discriminate; injection E1 as <-.
    - apply (run_nodup o_size o_align Hd [fst c] d d2 (lost ++ [])); [exact Hn|]. cbn [d_run]. rewrite E. reflexivity.
    - destruct (fst c) as [s v|s op]; cbn [d_unwound]; [exact Hn|]. destruct (hget inst_eqb d s); [|exact Hn]. destruct (d_cast _ _); try exact Hn. rewrite hset_keys. exact Hn.
  Qed.
  Lemma caughts_app l1 : forall d l2, d_caughts d (l1 ++ l2) = let! d' := d_caughts d l1 in d_caughts d' l2.
  Proof. induction l1 as [|c l1 IH]; intros d l2; [reflexivity|]. cbn [app d_caughts]. destruct (d_caught d c); cbn [obind]; auto. Qed.
End D.

Section W.
  Context {P : Prog} {Q : QFlag} (N : StatNames P) (o_size o_align : vty P -> Z).
  Notation cr := (c_run (Q := Q) N o_size o_align).
  Notation cs := (c_step (Q := Q) N o_size o_align).
  Notation call := (wop P Q * residue P)%type.

  Lemma c_run_app l1 : forall r l2, cr r (l1 ++ l2) = let! r' := cr r l1 in cr r' l2.
  Proof. induction l1 as [|o l1 IH]; intros r l2; [reflexivity|]. cbn [app c_run]. destruct (cs r o); cbn [obind]; auto. Qed.

  Record faithful_c (l : list call) (r : resources P Q) : Prop := {
    fc_defaults : d_caughts o_size o_align [] (caught_defaults l) = Done (content (r_defaults r));
    fc_dnone : r_defaults r = None <-> default_calls (map fst l) = [];
    fc_relations : content (r_relations r) = relations_pushed (map fst l);
    fc_rnone : r_relations r = None <-> relations_pushed (map fst l) = [];
    fc_names : content (r_names r) = rops_run N (types_registered (map fst l));
    fc_nnone : r_names r = None <-> types_registered (map fst l) = [];
    fc_cache : r_cache r = None <-> ~ In WCache (map fst l)
  }.
  Lemma default_caught r c : forall d (D : default_calls [fst c] = [d]) r', cs r c = Done r' ->
    exists x, d_caught o_size o_align (content (r_defaults r)) (d, snd c) = Done x /\ r' = set_defaults r x.
  Proof.
    destruct c as [o u]. cbn [fst snd]. unfold c_step, d_caught. cbn [fst snd]. intros d D r'.
    destruct o as [T|s v|s b|s b|g| | |sc n p| |e x p]; try discriminate D; injection D as <-; cbn [w_step w_unwound d_step].
    - change (content (r_defaults r)) with (or_insert (r_defaults r)).
      destruct (d_insert (or_insert (r_defaults r)) s v) as [x|p| |]; cbn [obind]; try discriminate; intros E; injection E as <-; eauto.
    - unfold register_min. cbn [d_step]. change (content (r_defaults r)) with (or_insert (r_defaults r)).
      destruct (d_patch o_size o_align (or_insert (r_defaults r)) s (OMin b)) as [x|p| |]; cbn [obind]; try discriminate; intros E; injection E as <-; eauto.
    - unfold register_max. cbn [d_step]. change (content (r_defaults r)) with (or_insert (r_defaults r)).
      destruct (d_patch o_size o_align (or_insert (r_defaults r)) s (OMax b)) as [x|p| |]; cbn [obind]; try discriminate; intros E; injection E as <-; eauto.
  Qed.
  (** What a call leaves alone. *)
  Lemma others_kept r c r' : cs r c = Done r' ->
    (default_calls [fst c] = [] -> r_defaults r' = r_defaults r) /\
    (match fst c with WRelation g => r_relations r' = Some (content (r_relations r) ++ [g]) | _ => r_relations r' = r_relations r end) /\
    (match fst c with WRegister T => r_names r' = Some (fst (register N (content (r_names r)) T)) | _ => r_names r' = r_names r end) /\
    (match fst c with
     | WCache => r_cache r' <> None
     | _ => r_cache r' = None <-> r_cache r = None
     end).
  Proof.
    destruct c as [o u]. cbn [fst snd]. unfold c_step. cbn [fst snd].
    destruct o as [T|s v|s b|s b|g| | |sc n p| |e x p]; cbn [w_step w_unwound default_calls flat_map app].
    - change (content (r_names r)) with (or_insert (r_names r)). destruct (register N (or_insert (r_names r)) T) as [m [u'| | |]]; cbn [snd fst obind]; try discriminate; intros E; injection E as <-; repeat split; auto.
    - destruct (d_insert _ s v); cbn [obind]; try discriminate; intros E; injection E as <-; (split; [discriminate|]); repeat split; auto.
    - destruct (d_step _ _ _ _); cbn [obind]; try discriminate; intros E; injection E as <-; (split; [discriminate|]); repeat split; auto.
    - destruct (d_step _ _ _ _); cbn [obind]; try discriminate; intros E; injection E as <-; (split; [discriminate|]); repeat split; auto.
    - intros E; injection E as <-. repeat split; auto.
    - destruct (r_cache r) as [c|] eqn:Ec; [destruct (cache_drop c); cbn [obind]|]; try discriminate; intros E; injection E as <-; cbn [set_cache r_cache r_defaults r_relations r_names]; rewrite ?Ec; repeat split; auto; discriminate.
    - destruct (r_cache r) as [c|] eqn:Ec; [destruct (cache_drop c)|]; cbn [obind]; try discriminate; intros E; injection E as <-; cbn [set_cache r_cache r_defaults r_relations r_names]; rewrite ?Ec; repeat split; auto; discriminate.
    - destruct (fst (w_query r sc n p)); cbn [obind]; try discriminate; intros E; injection E as <-; destruct (r_cache r) as [c|] eqn:Ec; cbn [set_cache r_cache r_defaults r_relations r_names]; rewrite ?Ec; repeat split; auto; discriminate.
    - destruct (r_cache r) as [c|] eqn:Ec; [destruct (cache_drop c)|]; cbn [obind]; try discriminate; intros E; injection E as <-; cbn [set_cache r_cache r_defaults r_relations r_names]; rewrite ?Ec; repeat split; auto; discriminate.
    - destruct (r_cache r) as [c|] eqn:Ec; [destruct (pair_clone_buffer p)|]; cbn [obind]; try discriminate; intros E; injection E as <-; cbn [set_cache r_cache r_defaults r_relations r_names]; rewrite ?Ec; repeat split; auto; discriminate.
  Qed.

  Lemma faithful_c_step l r c r' : faithful_c l r -> cs r c = Done r' -> faithful_c (l ++ [c]) r'.
  Proof.
    intros [Hd Hdn Hr Hrn Hn Hnn Hc] Hs.
    assert (E1 : caught_defaults (l ++ [c]) = caught_defaults l ++ map (fun d => (d, snd c)) (default_calls [fst c])).
    { unfold caught_defaults. rewrite flat_map_app. cbn [flat_map]. rewrite app_nil_r. reflexivity. }
    destruct (others_kept _ _ _ Hs) as (K1 & K2 & K3 & K4).
    assert (Ed : default_calls (map fst (l ++ [c])) = default_calls (map fst l) ++ default_calls [fst c]) by (rewrite map_app; apply flat_map_app).
    assert (Er : relations_pushed (map fst (l ++ [c])) = relations_pushed (map fst l) ++ relations_pushed [fst c]) by (rewrite map_app; apply flat_map_app).
    assert (En : types_registered (map fst (l ++ [c])) = types_registered (map fst l) ++ types_registered [fst c]) by (rewrite map_app; apply flat_map_app).
    assert (Ec : In WCache (map fst (l ++ [c])) <-> In WCache (map fst l) \/ fst c = WCache) by (rewrite map_app, in_app_iff; cbn; tauto).
    assert (D : default_calls [fst c] = [] \/ exists d, default_calls [fst c] = [d]) by (destruct (fst c); cbn; eauto).
    constructor.
    - rewrite E1, caughts_app, Hd. cbn [obind]. destruct D as [D|[d D]]; rewrite D; cbn [map d_caughts]; [rewrite K1 by exact D; reflexivity|].
      destruct (default_caught r c d D r' Hs) as (x & X & ->). rewrite X. reflexivity.
    - rewrite Ed. destruct D as [D|[d D]]; rewrite D; [rewrite app_nil_r, K1 by exact D; exact Hdn|].
      destruct (default_caught r c d D r' Hs) as (x & X & ->). rewrite app_nil_iff. cbn. split; [discriminate|contradiction].
    - rewrite Er. destruct (fst c); cbn [relations_pushed flat_map app]; rewrite K2; rewrite ?app_nil_r; try exact Hr. cbn [content]. rewrite Hr. reflexivity.
    - rewrite Er. destruct (fst c); cbn [relations_pushed flat_map app]; rewrite K2; rewrite ?app_nil_r, ?app_nil_iff; try exact Hrn. split; [discriminate|contradiction].
    - rewrite En. destruct (fst c); cbn [types_registered flat_map app]; rewrite K3; rewrite ?app_nil_r; try exact Hn. cbn [content]. rewrite rops_app. cbn [fold_left rop_run]. rewrite Hn. reflexivity.
    - rewrite En. destruct (fst c); cbn [types_registered flat_map app]; rewrite K3; rewrite ?app_nil_r, ?app_nil_iff; try exact Hnn. split; [discriminate|contradiction].
    - rewrite Ec. destruct (fst c); try (rewrite K4, Hc; split; [intros H [A|A]; [tauto|discriminate]|tauto]). split; [contradiction|]. intros H. exfalso. apply H. right. reflexivity.
  Qed.
  Lemma faithful_c_run l : forall l0 r r', faithful_c l0 r -> cr r l = Done r' -> faithful_c (l0 ++ l) r'.
  Proof.
    induction l as [|o l IH]; intros l0 r r' Hf Hw.
    - injection Hw as <-. rewrite app_nil_r. exact Hf.
    - cbn [c_run] in Hw. destruct (cs r o) as [r1| | |] eqn:Es; try discriminate.
      change (o :: l) with ([o] ++ l). rewrite app_assoc. apply (IH _ r1); [|exact Hw]. eapply faithful_c_step; eassumption.
  Qed.
  Lemma faithful_c_after l r : cr no_resources l = Done r -> faithful_c l r.
  Proof. intros H. apply (faithful_c_run l [] no_resources); [|exact H]. constructor; simpl; try tauto; reflexivity. Qed.
  Lemma caught_calls (l : list call) : map fst (caught_defaults l) = default_calls (map fst l).
  Proof.
    induction l as [|c l IH]; [reflexivity|]. change (caught_defaults (c :: l)) with (map (fun d => (d, snd c)) (default_calls [fst c]) ++ caught_defaults l).
    rewrite map_app, map_map, map_id, IH. change (map fst (c :: l)) with ([fst c] ++ map fst l). symmetry. apply flat_map_app.
  Qed.
  Lemma table_typed (Hd : distinct_vtables P) l r : backed (default_calls (map fst l)) -> cr no_resources l = Done r ->
    dtyped (content (r_defaults r)) /\ dfits (content (r_defaults r)) /\ dcaught_run no_defaults (caught_defaults l) (dabs (content (r_defaults r))).
  Proof.
    intros Hb Hr. apply faithful_c_after in Hr. destruct Hr as [Hr _ _ _ _ _ _].
    change (@no_defaults P) with (dabs (P := P) []). apply (caughts_typed o_size o_align Hd _ [] _); [intros s b H; discriminate|intros s b H; discriminate| |exact Hr].
    rewrite caught_calls. intros l1 s op l2 E. right. apply (Hb l1 s op l2 E).
  Qed.

  (** ** Undefined behaviour *)
  Lemma cache_good_c (Hd : distinct_vtables P) (Hq : flags_eq (Q := Q)) r c r' :
    (forall k b, In (k, b) (content (r_cache r)) -> entry_ok k b) -> cs r c = Done r' ->
    (forall k b, In (k, b) (content (r_cache r')) -> entry_ok k b).
  Proof.
    intros Hg. unfold c_step. destruct (w_step N o_size o_align r (fst c)) as [r1|p| |] eqn:Es; try discriminate; intros E; injection E as <-.
    - eapply cache_good_step; eassumption.
    - destruct (fst c) as [T|s v|s b|s b|g| | |sc n q| |e x q]; cbn [w_unwound]; try exact Hg.
      destruct (r_cache r) as [c0|] eqn:Ec; [|rewrite Ec; exact Hg].
      cbn [set_cache r_cache content]. unfold w_query. rewrite Ec. cbn [or_insert].
      intros k b. apply (puts_run Hd Hq _ (puts_interp _ _ _ (puts_level _ _))). exact Hg.
  Qed.
  Lemma cache_good_cs (Hd : distinct_vtables P) (Hq : flags_eq (Q := Q)) l : forall r r',
    (forall k b, In (k, b) (content (r_cache r)) -> entry_ok k b) -> cr r l = Done r' ->
    (forall k b, In (k, b) (content (r_cache r')) -> entry_ok k b).
  Proof.
    induction l as [|o l IH]; intros r r' Hg Hw.
    - injection Hw as <-. exact Hg.
    - cbn [c_run] in Hw. destruct (cs r o) as [r1| | |] eqn:Es; try discriminate.
      apply (IH r1); [|exact Hw]. eapply cache_good_c; eassumption.
  Qed.
  Lemma sound_of_decent (o : wop P Q) d : decent o -> default_calls [o] = [d] -> sound_call d.
  Proof. destruct o; cbn; try discriminate; intros H E; injection E as <-; cbn; auto. Qed.

  Lemma ub_only_in_queries (Hd : distinct_vtables P) (Hq : flags_eq (Q := Q)) l : backed (default_calls (map fst l)) -> Forall (fun c => decent (fst c)) l ->
    cr no_resources l = UB ->
    exists l1 sc n p u l2 r, l = l1 ++ (WQuery sc n p, u) :: l2 /\ cr no_resources l1 = Done r /\ fst (w_query r sc n p) = UB.
  Proof.
    intros Hb Hs. induction l as [|c l IH] using rev_ind; [discriminate|]. rewrite c_run_app. apply Forall_app in Hs. destruct Hs as [Hs Hc]. inversion_clear Hc as [|? ? Hc' _].
    assert (Hb' : backed (default_calls (map fst l))).
    { intros l1 s op l2 E. apply (Hb l1 s op (l2 ++ default_calls [fst c])). rewrite map_app. unfold default_calls at 1. rewrite flat_map_app. fold (default_calls (map fst l)). rewrite E, <- app_assoc. reflexivity. }
    destruct (cr no_resources l) as [r|p| |] eqn:El; cbn [obind]; try discriminate.
    2: { intros _. destruct (IH Hb' Hs eq_refl) as (l1 & sc & n & p & u & l2 & r & -> & H). exists l1, sc, n, p, u, (l2 ++ [c]), r. split; [rewrite <- app_assoc; reflexivity|exact H]. }
    cbn [c_run]. intros U. assert (U' : w_step N o_size o_align r (fst c) = UB) by (unfold c_step in U; destruct (w_step _ _ _ _ _); cbn [obind] in U; congruence).
    destruct (table_typed Hd l r Hb' El) as (T & F & _).
    assert (G : cache_drop (content (r_cache r)) = Done tt).
    { apply drop_ok. eapply cache_good_cs; [exact Hd|exact Hq| |exact El]. intros k b []. }
    assert (Rd : forall d, default_calls [fst c] = [d] -> d_step o_size o_align (or_insert (r_defaults r)) d <> UB).
    { intros d D. apply step_no_ub; [exact T| |exact (sound_of_decent _ _ Hc' D)]. destruct d as [s v|s op]; [exact I|]. cbn [ready1].
      pose proof (Hb (default_calls (map fst l)) s op []) as B.
      rewrite map_app in B. unfold default_calls at 1 in B. rewrite flat_map_app in B. fold (default_calls (map fst l)) in B. cbn [map] in B. change (flat_map _ [fst c]) with (default_calls [fst c]) in B.
      rewrite D in B. destruct (B eq_refl) as (Fs & c0 & Hin & Hi & Hst).
      change (or_insert (r_defaults r)) with (content (r_defaults r)). apply faithful_c_after in El. apply (caughts_present o_size o_align Hd (caught_defaults l) [] _); [intros ? ? H; discriminate|intros ? ? H; discriminate| |exact (fc_defaults _ _ El)|exact Fs|].
      - rewrite caught_calls. intros l1 s' op' l2 E. right. apply (Hb' l1 s' op' l2 E).
      - right. rewrite caught_calls. eauto. }
    destruct c as [o u]. cbn [fst] in *. destruct o as [T'|s v|s b|s b|g| | |sc n q| |e x q]; cbn [w_step] in U'.
    - destruct (proj2 (C37_register_panics_exactly_proof P N Hd (or_insert (r_names r)) T')) as [E|E]; rewrite E in U'; discriminate.
    - specialize (Rd _ eq_refl). cbn [d_step] in Rd. destruct (d_insert _ s v); cbn [obind] in *; congruence.
    - specialize (Rd _ eq_refl). unfold register_min in U'. destruct (d_step _ _ _ _); cbn [obind] in *; congruence.
    - specialize (Rd _ eq_refl). unfold register_max in U'. destruct (d_step _ _ _ _); cbn [obind] in *; congruence.
    - discriminate.
    - destruct (r_cache r) as [c0|]; [|discriminate]. cbn [content] in G. rewrite G in U'. discriminate.
    - destruct (r_cache r) as [c0|]; [|discriminate]. cbn [content] in G. rewrite G in U'. discriminate.
    - exists l, sc, n, q, u, [], r. split; [reflexivity|]. split; [exact El|]. destruct (fst (w_query r sc n q)); cbn [obind] in U'; congruence.
    - destruct (r_cache r) as [c0|]; [|discriminate]. cbn [content] in G. rewrite G in U'. discriminate.
    - destruct (r_cache r) as [c0|]; [|discriminate]. cbn [decent] in Hc'. destruct q as [s [t v]]. cbn [p_buf p_stat b_ty] in Hc'. destruct Hc' as [-> Fs].
      unfold pair_clone_buffer in U'. cbn [p_stat p_buf] in U'. rewrite (clone_same s (Buf (vt_value P (si_ty s)) v) eq_refl Fs) in U'. discriminate.
  Qed.

  (** ** Fresh answers *)
  Lemma fresh_run_c sc (l : list call) : Forall (fun c => changes_nothing sc (fst c)) l -> forall r r', of_queries (with_cache r sc) r -> cr r l = Done r' ->
    with_cache r' sc = with_cache r sc /\ of_queries (with_cache r sc) r'.
  Proof.
    induction 1 as [|o l Ho Hl IH]; intros r r' Hq Hw.
    - injection Hw as <-. auto.
    - cbn [c_run] in Hw. destruct (cs r o) as [r1| | |] eqn:Es; try discriminate. cbn [obind] in Hw.
      enough (Hr1 : with_cache r1 sc = with_cache r sc /\ of_queries (with_cache r sc) r1).
      { destruct Hr1 as [E Hr1]. rewrite <- E in Hr1. destruct (IH r1 r' Hr1 Hw) as [E' Hr']. rewrite E in E', Hr'. auto. }
      unfold c_step in Es. destruct (w_step N o_size o_align r (fst o)) as [r2|p| |] eqn:Ew; try discriminate; injection Es as <-.
      + destruct (fresh_run N o_size o_align sc [fst o] ltac:(repeat constructor; exact Ho) r r2 Hq) as [H1 H2]; [cbn [w_run]; rewrite Ew; reflexivity|auto].
      + destruct (fst o) as [T|s v|s b|s b|g| | |sc' n q| |e x q]; cbn [changes_nothing] in Ho; try contradiction; cbn [w_unwound]; try (split; [reflexivity|exact Hq]).
        subst sc'. destruct Hq as [Hq|[lq Hq]]; rewrite Hq; [split; [reflexivity|left; exact Hq]|].
        split; [reflexivity|]. right. exists (lq ++ [(n, q)]). cbn [set_cache r_cache]. f_equal.
        unfold w_query. rewrite Hq. cbn [or_insert]. rewrite (querier_cached r sc _ Hq). apply after_snoc.
  Qed.
  Lemma fresh_after_c (Hd : distinct_vtables P) (Hf : flags_eq (Q := Q)) (l2 : list call) r r1 sc n {A} (p : prog P Q A) :
    r_cache r1 = None \/ r_cache r1 = Some [] -> cr r1 l2 = Done r ->
    Forall (fun c => changes_nothing sc (fst c)) l2 -> stats_kept (querier_of r sc) ->
    same_as (fun n => fst (run (client (uncached (querier_of r sc)) n p) [])) n (fst (w_query r sc n p)).
  Proof.
    intros Hc Hw Hl Hk.
    assert (Hq : of_queries (with_cache r1 sc) r1) by (destruct Hc as [E|E]; [left; exact E|right; exists []; exact E]).
    destruct (fresh_run_c sc l2 Hl r1 r Hq Hw) as [E Hr]. rewrite <- E in Hr.
    unfold w_query. destruct Hr as [Hr|[lq Hr]].
    - rewrite client_uncached by (cbn [querier_of j_cached]; rewrite Hr; reflexivity). cbn [fst].
      rewrite <- (uncached_ask (querier_of r sc) n p). apply same_as_refl with (u := fun n => fst (run (client (uncached (querier_of r sc)) n p) [])).
    - rewrite Hr. cbn [or_insert]. rewrite (querier_cached r sc _ Hr) in Hk |- *.
      apply C27_transparent_proof; auto.
  Qed.
  (** Emptying calls empty also here: none of them panics once there is a cache. *)
  Lemma emptied_c (Hd : distinct_vtables P) (Hq : flags_eq (Q := Q)) l o u r : empties o -> cr no_resources (l ++ [(o, u)]) = Done r -> r_cache r = None \/ r_cache r = Some [].
  Proof.
    intros He. rewrite c_run_app. destruct (cr no_resources l) as [r0| | |] eqn:El; cbn [obind]; try discriminate.
    assert (G : cache_drop (content (r_cache r0)) = Done tt).
    { apply drop_ok. eapply cache_good_cs; [exact Hd|exact Hq| |exact El]. intros k b []. }
    cbn [c_run]. unfold c_step. cbn [fst snd].
    destruct o; cbn [empties] in He; try contradiction; cbn [w_step w_unwound]; destruct (r_cache r0) as [c|] eqn:Ec; cbn [content] in G; rewrite ?G; cbn [obind]; intros E; injection E as <-; cbn [set_cache r_cache]; auto.
  Qed.
End W.

Lemma C73_resources_proof : forall (P : Prog) (Q : QFlag) (N : StatNames P) (o_size o_align : vty P -> Z) (l : list (wop P Q * residue P)) (r : resources P Q),
  c_run N o_size o_align no_resources l = Done r ->
  (r_defaults r = None <-> default_calls (map fst l) = []) /\
  (content (r_relations r) = relations_pushed (map fst l) /\ (r_relations r = None <-> relations_pushed (map fst l) = [])) /\
  (content (r_names r) = rops_run N (types_registered (map fst l)) /\ (r_names r = None <-> types_registered (map fst l) = [])) /\
  (r_cache r = None <-> ~ In WCache (map fst l)).
Proof. intros P Q N o_size o_align l r H. apply faithful_c_after in H. destruct H. repeat (split; try assumption). Qed.
Lemma C73_defaults_proof : forall (P : Prog) (Q : QFlag) (N : StatNames P) (o_size o_align : vty P -> Z) (l : list (wop P Q * residue P)) (r : resources P Q),
  distinct_vtables P -> backed (default_calls (map fst l)) -> c_run N o_size o_align no_resources l = Done r ->
  (exists sp, dcaught_run no_defaults (caught_defaults l) sp /\ forall s, fits s -> d_get (content (r_defaults r)) s = Done (or_default s (sp s))) /\
  (exists dropped, d_drop (content (r_defaults r)) = Done dropped /\ map DVal dropped = map snd (content (r_defaults r))) /\
  forall sc, defaults_typed (j_world (querier_of r sc)).
Proof.
  intros P Q N o_size o_align l r Hd Hb Hr. destruct (table_typed N o_size o_align Hd l r Hb Hr) as (T & F & S). split; [|split].
  - eexists. split; [exact S|]. intros s Fs. apply get_spec; assumption.
  - apply (drop_all_once Hd); [|exact T|exact F]. apply faithful_c_after in Hr. exact (caughts_nodup o_size o_align Hd _ [] _ (NoDup_nil _) (fc_defaults _ _ _ _ _ Hr)).
  - intros sc. unfold defaults_typed. cbn. destruct (r_defaults r) as [d|] eqn:E; [exact T|exact I].
Qed.
Lemma C73_defined_proof : forall (P : Prog) (Q : QFlag) (N : StatNames P) (o_size o_align : vty P -> Z) (l : list (wop P Q * residue P)),
  distinct_vtables P -> flags_eq (Q := Q) -> backed (default_calls (map fst l)) -> Forall (fun c => decent (fst c)) l ->
  c_run N o_size o_align no_resources l = UB ->
  exists l1 sc n p u l2 r, l = l1 ++ (WQuery sc n p, u) :: l2 /\ c_run N o_size o_align no_resources l1 = Done r /\ fst (w_query r sc n p) = UB.
Proof. exact (fun P Q N o_size o_align l Hd Hq => @ub_only_in_queries P Q N o_size o_align Hd Hq l). Qed.
Lemma C73_fresh_proof : forall (P : Prog) (Q : QFlag) (N : StatNames P) (o_size o_align : vty P -> Z) (l1 l2 : list (wop P Q * residue P)) (o : wop P Q) (u : residue P)
    (r : resources P Q) (sc : scene P Q) (n : nat) (A : Type) (p : prog P Q A),
  distinct_vtables P -> flags_eq (Q := Q) ->
  c_run N o_size o_align no_resources (l1 ++ (o, u) :: l2) = Done r ->
  empties o -> Forall (fun c => changes_nothing sc (fst c)) l2 -> stats_kept (querier_of r sc) ->
  same_as (fun n => fst (run (client (uncached (querier_of r sc)) n p) [])) n (fst (w_query r sc n p)).
Proof.
  intros P Q N o_size o_align l1 l2 o u r sc n A p Hd Hf Hr He Hl Hk. change ((o, u) :: l2) with ([(o, u)] ++ l2) in Hr. rewrite app_assoc, c_run_app in Hr.
  destruct (c_run N o_size o_align no_resources (l1 ++ [(o, u)])) as [r1| | |] eqn:E; try discriminate. cbn [obind] in Hr.
  exact (fresh_after_c N o_size o_align Hd Hf l2 r r1 sc n p (emptied_c N o_size o_align Hd Hf l1 o u r1 He E) Hr Hl Hk).
Qed.
(** Without panics nothing new happens. *)
Lemma C73_same_proof : forall (P : Prog) (Q : QFlag) (N : StatNames P) (o_size o_align : vty P -> Z) (l : list (wop P Q * residue P)) (r0 r : resources P Q),
  w_run N o_size o_align r0 (map fst l) = Done r -> c_run N o_size o_align r0 l = Done r.
Proof.
  intros P Q N o_size o_align l. induction l as [|c l IH]; intros r0 r; [exact (fun H => H)|]. cbn [map w_run c_run]. unfold c_step.
  destruct (w_step N o_size o_align r0 (fst c)); cbn [obind]; try discriminate. apply IH.
Qed.

Lemma C73_atomic_refuted_proof : exists (l : list dop_w) (o : dop_w) (n : string),
  w_ends l = Done tt /\ w_ends (l ++ [o]) = Panics PDuplicate /\ c_name l n = Done None /\ c_name (l ++ [o]) n = Done (Some (Atk, 0%Z)).
Proof. exists [@WRegister demo intQ Hp], (@WRegister demo intQ Atk), "Atk"%string. repeat split; vm_compute; reflexivity. Qed.
