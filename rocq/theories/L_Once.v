From Coq Require Import ZArith List Bool String Lia PeanoNat Permutation.
From Verif Require Import M_Outcome M_Value M_Qualifier M_Stat M_HashMap M_Pair M_Defaults M_Querier S_Pair S_StatMap S_Querier S_Once L_StatMap3 L_HashMap L_Defaults L_Querier L_Querier2 L_Querier3 L_Querier4.
Import ListNotations.

Section L.
  Context {P : Prog} {Q : QFlag}.
  Notation qq := (qquery Q).
  Notation PR := (prog P Q).
  Notation tyof s := (vt_value P (si_ty s)).
  Implicit Types j : joined P Q.

  Definition grows (c c1 : cache P Q) : Prop := forall k, hget key_eqb c k <> None -> hget key_eqb c1 k <> None.
  Lemma grows_refl c : grows c c. Proof. intros k H. exact H. Qed.
  Lemma grows_trans a b c : grows a b -> grows b c -> grows a c. Proof. intros H1 H2 k H. apply H2, H1, H. Qed.
  Lemma grows_none c c1 k : grows c c1 -> hget key_eqb c1 k = None -> hget key_eqb c k = None.
  Proof. intros H E. destruct (hget key_eqb c k) eqn:E0; [|reflexivity]. exfalso. apply (H k); [congruence|exact E]. Qed.

  Section Amid.
    Hypothesis Hd : distinct_vtables P.
    Hypothesis Hq : flags_eq (Q := Q).
    Variable V : key P Q -> buffer P -> Prop.
    (** The steps of one thread, with others adding valid entries before every step. *)
    Inductive amid {A} : act P Q A -> cache P Q -> list (key P Q) -> outcome A -> cache P Q -> Prop :=
    | amid_ret : forall a c, amid (ARet a) c [] (Done a) c
    | amid_fail : forall o c, amid (AFail o) c [] (abort o) c
    | amid_get : forall k f c ms o c', amid (f (hget key_eqb c k)) c ms o c' -> amid (AGet k f) c (miss (AGet k f) c ++ ms) o c'
    | amid_put : forall k b f c ms o c', amid f (fst (hput key_eqb c k b)) ms o c' -> amid (APut k b f) c ms o c'
    | amid_env : forall m c c1 ms o c', grows c c1 -> valid V c1 -> amid m c1 ms o c' -> amid m c ms o c'.

    Lemma grows_put c k b : grows c (fst (hput key_eqb c k b)).
    Proof.
      intros k0 H. destruct (eqb_dec key_eqb (key_eqb_ok Hd Hq) k0 k) as [-> |Hn].
      - rewrite (hget_hput_same key_eqb (key_eqb_ok Hd Hq)). discriminate.
      - rewrite (hget_hput_other key_eqb (key_eqb_ok Hd Hq)) by exact Hn. exact H.
    Qed.
    Lemma amid_grows {A} (m : act P Q A) c ms o c' : amid m c ms o c' -> grows c c'.
    Proof.
      induction 1 as [a c|o c|k f c ms o c' _ IH|k b f c ms o c' _ IH|m c c1 ms o c' G _ _ IH]; [apply grows_refl|apply grows_refl|exact IH| |].
      - exact (grows_trans _ _ _ (grows_put c k b) IH).
      - exact (grows_trans _ _ _ G IH).
    Qed.
    Lemma amid_good {A} (m : act P Q A) c ms o c' R : amid m c ms o c' -> good V m R -> valid V c -> R o /\ valid V c'.
    Proof.
      intros H. induction H as [a c|o c|k f c ms o c' _ IH|k b f c ms o c' _ IH|m c c1 ms o c' G V1 _ IH]; cbn [good]; intros Hg Hv.
      - split; assumption.
      - split; assumption.
      - destruct Hg as [H1 H2]. apply IH; [|exact Hv]. destruct (hget key_eqb c k) as [b|] eqn:E; [apply H2, Hv, E|exact H1].
      - destruct Hg as [H1 H2]. apply IH; [exact H2|]. apply (valid_put Hd Hq); assumption.
      - apply IH; assumption.
    Qed.
    Lemma amid_outcome {A} (o0 : outcome A) c ms o c' : amid (a_outcome o0) c ms o c' -> ms = [] /\ o = o0.
    Proof.
      remember (a_outcome o0) as m eqn:E. intros H. induction H as [a c|o c|k f c ms o c' _ _|k b f c ms o c' _ _|m c c1 ms o c' _ _ _ IH].
      - destruct o0; cbn in E; try discriminate. injection E as ->. split; reflexivity.
      - destruct o0; cbn in E; try discriminate; injection E as ->; split; reflexivity.
      - destruct o0; discriminate.
      - destruct o0; discriminate.
      - apply IH, E.
    Qed.
    Lemma amid_done {A} (a : A) c ms o c' : amid (ARet a) c ms o c' -> ms = [] /\ o = Done a.
    Proof. exact (amid_outcome (Done a) c ms o c'). Qed.
    (** A sequence ends in its first part, or passes through it. *)
    Lemma amid_bind {A B} (m : act P Q A) (f : A -> act P Q B) c ms o c' : amid (abind m f) c ms o c' ->
      (exists a c1 ms1 ms2, amid m c ms1 (Done a) c1 /\ amid (f a) c1 ms2 o c' /\ ms = ms1 ++ ms2) \/
      (exists e, amid m c ms (abort e) c' /\ o = abort e).
    Proof.
      remember (abind m f) as mm eqn:E. intros H. revert m E.
      induction H as [b c|e c|k g c ms o c' H IH|k b g c ms o c' H IH|mm c c1 ms o c' G V1 H IH]; intros m E.
      - destruct m as [a|e|k g|k b0 g|g]; cbn in E; try discriminate. left. exists a, c, [], [].
        split; [constructor|]. split; [rewrite <- E; constructor|reflexivity].
      - destruct m as [a|e0|k g|k b0 g|g]; cbn in E; try discriminate.
        + left. exists a, c, [], []. split; [constructor|]. split; [rewrite <- E; constructor|reflexivity].
        + injection E as ->. right. exists e0. split; [constructor|reflexivity].
      - destruct m as [a|e0|k0 g0|k0 b0 g0|g0]; cbn in E; try discriminate.
        + left. exists a, c, [], (miss (AGet k g) c ++ ms). split; [constructor|]. split; [|reflexivity]. rewrite <- E. apply amid_get. exact H.
        + injection E as -> ->. destruct (IH (g0 (hget key_eqb c k0)) eq_refl) as [(a & c1 & ms1 & ms2 & H1 & H2 & ->)|(e & H1 & ->)].
          * left. exists a, c1, (miss (AGet k0 g0) c ++ ms1), ms2. split; [apply amid_get, H1|]. split; [exact H2|]. rewrite <- app_assoc. reflexivity.
          * right. exists e. split; [exact (amid_get k0 g0 c ms _ c' H1)|reflexivity].
      - destruct m as [a|e0|k0 g0|k0 b0 g0|g0]; cbn in E; try discriminate.
        + left. exists a, c, [], ms. split; [constructor|]. split; [|reflexivity]. rewrite <- E. apply amid_put. exact H.
        + injection E as -> -> ->. destruct (IH g0 eq_refl) as [(a & c1 & ms1 & ms2 & H1 & H2 & ->)|(e & H1 & ->)].
          * left. exists a, c1, ms1, ms2. split; [apply amid_put, H1|]. split; [exact H2|reflexivity].
          * right. exists e. split; [apply amid_put, H1|reflexivity].
      - destruct (IH m E) as [(a & c2 & ms1 & ms2 & H1 & H2 & ->)|(e & H1 & ->)].
        + left. exists a, c2, ms1, ms2. split; [exact (amid_env _ _ _ _ _ _ G V1 H1)|]. split; [exact H2|reflexivity].
        + right. exists e. split; [exact (amid_env _ _ _ _ _ _ G V1 H1)|reflexivity].
    Qed.
    Lemma abort_not_done {A} (e : outcome Empty_set) (a : A) : abort e <> Done a.
    Proof. destruct e as [[]| | |]; discriminate. Qed.
    Lemma abort_eq {A B} (e e' : outcome Empty_set) : @abort A e = abort e' -> @abort B e = abort e'.
    Proof. destruct e as [[]| | |], e' as [[]| | |]; cbn; congruence. Qed.
    Lemma abort_fuel {A B} (e : outcome Empty_set) : @abort A e <> NoFuel -> @abort B e <> NoFuel.
    Proof. destruct e as [[]| | |]; cbn; congruence. Qed.
    Lemma amid_interp_returns (ha : forall r, act P Q (raw r)) {A} (R : A -> Prop) (p : PR A) : forall c ms a c',
      no_wipe p -> returns R p -> amid (interp true ha p) c ms (Done a) c' -> R a.
    Proof.
      induction p as [b|o|r k IH|k IH]; intros c ms a c' Hw Hr H; cbn [interp returns no_wipe] in *; [| | |contradiction].
      - apply amid_done in H as [_ H]. injection H as ->. exact Hr.
      - exfalso. assert (G : forall o' : outcome A, amid (AFail o) c ms o' c' -> o' = abort o).
        { clear. remember (AFail o) as m eqn:E. intros o' H. induction H; try discriminate; [congruence|apply IHamid, E]. }
        apply G in H. symmetry in H. exact (abort_not_done _ _ H).
      - apply amid_bind in H as [(u & c1 & ms1 & ms2 & _ & H & _)|(e & _ & E)]; [|symmetry in E; destruct (abort_not_done _ _ E)].
        apply amid_bind in H as [(o & c2 & ms3 & ms4 & _ & H & _)|(e & _ & E)]; [|symmetry in E; destruct (abort_not_done _ _ E)].
        apply amid_bind in H as [(v & c3 & ms5 & ms6 & _ & H & _)|(e & _ & E)]; [|symmetry in E; destruct (abort_not_done _ _ E)].
        exact (IH v _ _ _ _ (Hw v) (Hr v) H).
    Qed.
  End Amid.

  Section Once.
    Hypothesis Hd : distinct_vtables P.
    Hypothesis Hq : flags_eq (Q := Q).
    Variable j : joined P Q.
    Hypothesis Hc : j_cached j = true.
    Hypothesis Hk : stats_kept j.
    Hypothesis Hw : never_clears j.
    Notation V := (right j).
    (** Nothing is computed twice, nothing that is there, all of it is there if the act ends well,
        and all of it is answered within every depth that suffices. *)
    Definition once {A} (m : act P Q A) (u : nat -> outcome A) : Prop :=
      forall c ms o c', amid V m c ms o c' -> valid V c -> o <> NoFuel ->
      NoDup ms /\ (forall k, In k ms -> hget key_eqb c k = None) /\
      (forall a, o = Done a -> forall k, In k ms -> hget key_eqb c' k <> None) /\
      (forall n, u n <> NoFuel -> forall k, In k ms -> answer j n (key_request k) <> NoFuel).
    Lemma once_nil {A} (m : act P Q A) u : (forall c ms o c', amid V m c ms o c' -> ms = []) -> once m u.
    Proof. intros H c ms o c' Hm _ _. rewrite (H _ _ _ _ Hm). split; [constructor|]. split; [intros k []|]. split; [intros a _ k []|intros n _ k []]. Qed.
    Lemma amid_fail_nil {A} (e : outcome Empty_set) c ms (o : outcome A) c' : amid V (AFail e) c ms o c' -> ms = [].
    Proof. remember (AFail e) as m eqn:E. intros H. induction H; try discriminate; [reflexivity|apply IHamid, E]. Qed.
    Lemma nodup_app {A} (l m : list A) : NoDup l -> NoDup m -> (forall a, In a l -> In a m -> False) -> NoDup (l ++ m).
    Proof.
      intros H1 H2 H. induction H1 as [|a l Ha _ IH]; cbn; [exact H2|]. constructor.
      - rewrite in_app_iff. intros [Hi|Hi]; [exact (Ha Hi)|]. exact (H a (or_introl eq_refl) Hi).
      - apply IH. intros b Hb. apply H. right. exact Hb.
    Qed.
    Lemma once_interp n (ha : forall r, act P Q (raw r)) {A} (p : PR A) :
      (forall r, good V (ha r) (rightly (fun n => answer j n r) n)) -> no_wipe p ->
      (forall r, once (ha r) (fun n => answer j n r)) -> once (interp true ha p) (fun n => ask j n p).
    Proof.
      intros Hg Hnw H. induction p as [a|o|r k IH|k IH]; cbn [interp no_wipe] in *; [| | |contradiction].
      - apply once_nil. intros c ms o c' Hm. apply (amid_done V) in Hm. tauto.
      - apply once_nil. intros c ms o' c' Hm. exact (amid_fail_nil _ _ _ _ _ Hm).
      - intros c ms o c' Hm Hv Hf.
        apply amid_bind in Hm as [(u & c1 & ms1 & ms2 & Hm1 & Hm & ->)|(e & Hm & ->)].
        2: { apply amid_outcome in Hm as [-> _]. split; [constructor|]. split; [intros k0 []|]. split; [intros a _ k0 []|intros n0 _ k0 []]. }
        pose proof (amid_grows Hd Hq _ _ _ _ _ _ Hm1) as G1.
        pose proof (proj2 (amid_good Hd Hq _ _ _ _ _ _ (fun _ => True) Hm1 (proj2 (good_outcome _ _ _) I) Hv)) as V1.
        apply amid_outcome in Hm1 as [-> Ec]. cbn [app]. symmetry in Ec.
        apply amid_bind in Hm as [(v & c2 & ms3 & ms4 & Hm2 & Hm & ->)|(e & Hm & ->)].
        2: { pose proof (H r _ _ _ _ Hm V1 (abort_fuel _ Hf)) as (A1 & A2 & A3 & A4).
             split; [exact A1|]. split; [intros k0 Hi; exact (grows_none _ _ _ G1 (A2 k0 Hi))|]. split; [intros a Ea; destruct (abort_not_done _ _ Ea)|].
             intros m Hn. apply A4. intros E. apply Hn. unfold ask. cbn [oeval]. rewrite Ec. cbn [obind]. rewrite E. reflexivity. }
        destruct (amid_good Hd Hq _ _ _ _ _ _ _ Hm2 (Hg r) V1) as [[Hex _] V2].
        destruct (Hex ltac:(discriminate)) as [m1 E1]. clear Hex.
        destruct (H r _ _ _ _ Hm2 V1 ltac:(discriminate)) as (A1 & A2 & A3 & A4).
        pose proof (amid_grows Hd Hq _ _ _ _ _ _ Hm2) as G2.
        assert (Hans : forall m, ask j m (Ask r k) <> NoFuel -> answer j m r = Done v /\ answer j m r <> NoFuel).
        { intros m Hn. assert (Ha : answer j m r <> NoFuel).
          { intros E. apply Hn. unfold ask. cbn [oeval]. rewrite Ec. cbn [obind]. rewrite E. reflexivity. }
          split; [|exact Ha]. rewrite <- E1. apply answer_unique; [exact Ha|]. rewrite E1. discriminate. }
        apply amid_bind in Hm as [(w & c3 & ms5 & ms6 & Hm3 & Hm & ->)|(e & Hm & ->)].
        2: { pose proof (amid_grows Hd Hq _ _ _ _ _ _ Hm) as G3. apply amid_outcome in Hm as [-> _]. rewrite app_nil_r. split; [exact A1|]. split; [intros k0 Hi; exact (grows_none _ _ _ G1 (A2 k0 Hi))|].
             split; [intros a Ea; destruct (abort_not_done _ _ Ea)|]. intros m Hn. apply A4. apply (Hans m Hn). }
        pose proof (amid_grows Hd Hq _ _ _ _ _ _ Hm3) as G3.
        pose proof (proj2 (amid_good Hd Hq _ _ _ _ _ _ (fun _ => True) Hm3 (proj2 (good_outcome _ _ _) I) V2)) as V3.
        apply amid_outcome in Hm3 as [-> Et]. cbn [app]. symmetry in Et.
        destruct (IH w (Hnw w) _ _ _ _ Hm V3 Hf) as (B1 & B2 & B3 & B4).
        pose proof (amid_grows Hd Hq _ _ _ _ _ _ Hm) as G4.
        split; [apply nodup_app; [exact A1|exact B1|]|].
        { intros k0 Hi Hi'. apply (A3 v eq_refl k0 Hi). apply (grows_none _ _ _ G3). apply B2, Hi'. }
        split; [|split].
        + intros k0 Hi. apply in_app_iff in Hi as [Hi|Hi]; apply (grows_none _ _ _ G1); [exact (A2 k0 Hi)|].
          apply (grows_none _ _ _ G2), (grows_none _ _ _ G3). exact (B2 k0 Hi).
        + intros a Ea k0 Hi. apply in_app_iff in Hi as [Hi|Hi]; [|exact (B3 a Ea k0 Hi)]. apply G4, G3. exact (A3 v eq_refl k0 Hi).
        + intros m Hn k0 Hi. destruct (Hans m Hn) as [Ha Ha']. apply in_app_iff in Hi as [Hi|Hi]; [exact (A4 m Ha' k0 Hi)|].
          apply (B4 m); [|exact Hi]. intros E. apply Hn. unfold ask in *. cbn [oeval]. rewrite Ec. cbn [obind]. rewrite Ha. cbn [obind]. rewrite Et. cbn [obind]. exact E.
    Qed.
    Lemma once_level n : forall r, once (level j n r) (fun n => answer j n r).
    Proof.
      induction n as [|n IH]; intros r.
      { apply once_nil. intros c ms o c' Hm. exact (amid_fail_nil _ _ _ _ _ Hm). }
      pose proof (level_good j Hc Hk n) as Hgn.
      destruct r as [e x s|f t x s|e a].
      - intros c ms o c' Hm Hv Hf. pose proof (level_good j Hc Hk (S n) (RStat e x s)) as Hg.
        destruct (amid_good Hd Hq _ _ _ _ _ _ _ Hm Hg Hv) as [[Hex _] _]. specialize (Hex Hf). clear Hg.
        cbn [level erased] in Hm. unfold query_stat_erased in Hm. rewrite Hc in Hm.
        destruct (w_entities (j_world j) e) as [ch|] eqn:Ee.
        2: { apply (amid_done V) in Hm as [-> _]. split; [constructor|]. split; [intros k0 []|]. split; [intros a _ k0 []|intros m _ k0 []]. }
        match type of Hm with amid _ (AGet _ ?g) _ _ _ _ => set (F := g) in Hm end.
        assert (G : exists c1 ms1, grows c c1 /\ valid V c1 /\ ms = miss (AGet (e, x, s) F) c1 ++ ms1 /\ amid V (F (hget key_eqb c1 (e, x, s))) c1 ms1 o c').
        { clear Hf Hex. remember (AGet (e, x, s) F) as mm eqn:E. induction Hm as [a c|e0 c|k f c ms o c' H _|k b f c ms o c' _ _|m c c1 ms o c' G V1 _ IHm]; try discriminate.
          - injection E as -> ->. exists c, ms. split; [apply grows_refl|]. split; [exact Hv|]. split; [reflexivity|exact H].
          - destruct (IHm E V1) as (c2 & ms1 & G1 & V2 & X). exists c2, ms1. split; [exact (grows_trans _ _ _ G G1)|]. split; [exact V2|exact X]. }
        clear Hm. destruct G as (c1 & ms1 & G1 & V1 & -> & Hm). cbn [miss].
        destruct (hget key_eqb c1 (e, x, s)) as [b0|] eqn:Eh; cbn [app]; unfold F in Hm; clear F.
        { assert (E0 : ms1 = []).
          { apply amid_bind in Hm as [(b & c2 & ms2 & ms3 & H1 & H2 & ->)|(e0 & H1 & _)].
            - apply amid_outcome in H1 as [-> _]. apply (amid_done V) in H2 as [-> _]. reflexivity.
            - apply amid_outcome in H1 as [-> _]. reflexivity. }
          rewrite E0. split; [constructor|]. split; [intros k0 []|]. split; [intros a _ k0 []|intros m _ k0 []]. }
        pose proof (grows_none _ _ _ G1 Eh) as Eh0.
        apply amid_bind in Hm as [(b0 & c2 & ms2 & ms3 & H1 & Hm & ->)|(e0 & H1 & ->)].
        2: { apply amid_outcome in H1 as [-> _]. split; [repeat constructor; intros []|]. split; [intros k0 [<- |[]]; exact Eh0|].
             split; [intros a Ea; destruct (abort_not_done _ _ Ea)|]. intros m Hn k0 [<- |[]]. exact Hn. }
        pose proof (amid_grows Hd Hq _ _ _ _ _ _ H1) as G2.
        pose proof (proj2 (amid_good Hd Hq _ _ _ _ _ _ (fun _ => True) H1 (proj2 (good_outcome _ _ _) I) V1)) as V2.
        apply amid_outcome in H1 as [-> Es]. cbn [app]. symmetry in Es.
        assert (Ei : initial (j_world j) s = Done (fst b0)) by (rewrite <- start_initial, Es; reflexivity).
        assert (Hbody : forall m, answer j (S m) (RStat e x s) <> NoFuel -> ask j m (stat_body j e ch x (Pair s (fst b0))) <> NoFuel).
        { intros m Hm0 E. apply Hm0. cbn [answer answer1]. rewrite Ee, Ei. cbn [obind]. unfold ask in E. rewrite stat_body_collect in E. rewrite E. reflexivity. }
        assert (Hnw : no_wipe (stat_body j e ch x (Pair s (fst b0)))).
        { apply (R_stat_body (fun A p => no_wipe p)); [intros; exact I|apply no_wipe_bind|exact Hw]. }
        pose proof (once_interp n (level j n) (stat_body j e ch x (Pair s (fst b0))) Hgn Hnw IH) as Hon.
        (* the part of the run in the streams *)
        assert (Part : forall ms4 o4 c4, amid V (interp true (level j n) (stat_body j e ch x (Pair s (fst b0)))) c2 ms4 o4 c4 -> o4 <> NoFuel ->
          NoDup ((e, x, s) :: ms4) /\ (forall k0, In k0 ms4 -> hget key_eqb c k0 = None) /\
          (forall a, o4 = Done a -> forall k0, In k0 ms4 -> hget key_eqb c4 k0 <> None) /\
          (forall m, answer j m (RStat e x s) <> NoFuel -> forall k0, In k0 ms4 -> answer j m (key_request k0) <> NoFuel)).
        { intros ms4 o4 c4 H4 Hf4. destruct (Hon _ _ _ _ H4 V2 Hf4) as (A1 & A2 & A3 & A4).
          split; [|split; [|split]].
          - constructor; [|exact A1]. intros Hi. destruct Hex as [m0 Em0].
            assert (Hall : forall m, answer j m (RStat e x s) = NoFuel).
            { induction m as [|m IHm]; [reflexivity|]. destruct (answer j (S m) (RStat e x s)) eqn:Ea; try reflexivity; exfalso;
                apply (A4 m (Hbody m ltac:(rewrite Ea; discriminate)) (e, x, s) Hi); exact IHm. }
            apply Hf. rewrite <- Em0. apply Hall.
          - intros k0 Hi. apply (grows_none _ _ _ G1), (grows_none _ _ _ G2), A2, Hi.
          - exact A3.
          - intros m Hn k0 Hi. destruct m as [|m]; [contradiction Hn; reflexivity|].
            specialize (A4 m (Hbody m Hn) k0 Hi). rewrite (ole_stop _ _ (answer_le j m (S m) (key_request k0) ltac:(lia)) A4). exact A4. }
        clear Hex. cbv beta iota in Hm.
        apply amid_bind in Hm as [(p & c3 & ms4 & ms5 & H4 & Hm & ->)|(e0 & H4 & ->)].
        2: { destruct (Part _ _ _ H4 (abort_fuel _ Hf)) as (A1 & A2 & A3 & A4). split; [exact A1|].
             split; [intros k0 [<- |Hi]; [exact Eh0|exact (A2 k0 Hi)]|]. split; [intros a Ea; destruct (abort_not_done _ _ Ea)|].
             intros m Hn k0 [<- |Hi]; [exact Hn|exact (A4 m Hn k0 Hi)]. }
        destruct (Part _ _ _ H4 ltac:(discriminate)) as (A1 & A2 & A3 & A4).
        pose proof (amid_interp_returns V (level j n) _ _ _ _ _ _ Hnw (stat_body_keeps j e ch x (Pair s (fst b0)) Hk (proj1 (initial_ty _ _ _ Ei))) H4) as [Hs _]. cbn in Hs.
        assert (Fin : ms5 = [] /\ (forall a, o = Done a -> grows c3 c' /\ hget key_eqb c' (e, x, s) <> None)).
        { rewrite Hs in Hm. apply amid_bind in Hm as [(kb & c5 & ms6 & ms7 & H5 & Hm & ->)|(e0 & H5 & ->)].
          - pose proof (amid_grows Hd Hq _ _ _ _ _ _ H5) as G5. apply amid_outcome in H5 as [-> _]. cbn [app].
            assert (X : ms7 = [] /\ grows c5 c' /\ hget key_eqb c' (e, x, s) <> None).
            { remember (APut (e, x, s) kb (ARet (Some (p_buf p)))) as mm eqn:E. clear - Hm E Hd Hq.
              induction Hm as [a c|e0 c|k f c ms o c' H _|k b f c ms o c' H _|m c c1 ms o c' G V1 _ IHm]; try discriminate.
              - injection E as -> -> ->. pose proof (amid_grows Hd Hq _ _ _ _ _ _ H) as G. apply (amid_done V) in H as [-> _].
                split; [reflexivity|]. split; [exact (grows_trans _ _ _ (grows_put Hd Hq _ _ _) G)|]. apply G.
                rewrite (hget_hput_same key_eqb (key_eqb_ok Hd Hq)). discriminate.
              - destruct (IHm E) as (X1 & X2 & X3). split; [exact X1|]. split; [exact (grows_trans _ _ _ G X2)|exact X3]. }
            destruct X as (-> & X2 & X3). split; [reflexivity|]. intros a _. split; [exact (grows_trans _ _ _ G5 X2)|exact X3].
          - apply amid_outcome in H5 as [-> _]. split; [reflexivity|]. intros a Ea. destruct (abort_not_done _ _ Ea). }
        destruct Fin as [-> Fin]. rewrite app_nil_r. split; [exact A1|].
        split; [intros k0 [<- |Hi]; [exact Eh0|exact (A2 k0 Hi)]|]. split.
        + intros a Ea k0 [<- |Hi]; destruct (Fin a Ea) as [X1 X2]; [exact X2|]. apply X1. exact (A3 p eq_refl k0 Hi).
        + intros m Hn k0 [<- |Hi]; [exact Hn|exact (A4 m Hn k0 Hi)].
      - intros c ms o c' Hm Hv Hf. cbn [level erased] in Hm. unfold query_relation_erased in Hm. rewrite Hc in Hm.
        assert (Nil : forall o c ms c', amid V (@ARet P Q (option (buffer P)) None) c ms o c' ->
          NoDup ms /\ (forall k, In k ms -> hget key_eqb c k = None) /\
          (forall a, o = Done a -> forall k, In k ms -> hget key_eqb c' k <> None) /\
          (forall n, answer j n (RRel f t x s) <> NoFuel -> forall k, In k ms -> answer j n (key_request k) <> NoFuel)).
        { intros o0 c0 ms0 c0' H. apply (amid_done V) in H as [-> _]. split; [constructor|]. split; [intros k0 []|]. split; [intros a _ k0 []|intros m _ k0 []]. }
        destruct (w_entities (j_world j) f) as [cf|] eqn:Ef; [|exact (Nil _ _ _ _ Hm)].
        destruct (w_entities (j_world j) t) as [ct|] eqn:Et; [|exact (Nil _ _ _ _ Hm)]. clear Nil.
        apply amid_bind in Hm as [(b0 & c2 & ms2 & ms3 & H1 & Hm & ->)|(e0 & H1 & ->)].
        2: { apply amid_outcome in H1 as [-> _]. split; [constructor|]. split; [intros k0 []|]. split; [intros a _ k0 []|intros m _ k0 []]. }
        pose proof (amid_grows Hd Hq _ _ _ _ _ _ H1) as G2.
        pose proof (proj2 (amid_good Hd Hq _ _ _ _ _ _ (fun _ => True) H1 (proj2 (good_outcome _ _ _) I) Hv)) as V2.
        apply amid_outcome in H1 as [-> Es]. cbn [app]. symmetry in Es.
        assert (Ei : initial (j_world j) s = Done (fst b0)) by (rewrite <- start_initial, Es; reflexivity).
        assert (Hnw : no_wipe (rel_body j f t x (Pair s (fst b0)))).
        { apply (R_rel_body (fun A p => no_wipe p)); [intros; exact I|apply no_wipe_bind|exact Hw]. }
        pose proof (once_interp n (level j n) (rel_body j f t x (Pair s (fst b0))) Hgn Hnw IH) as Hon.
        assert (Hup : forall m, answer j m (RRel f t x s) <> NoFuel -> forall k0,
          (forall m0, ask j m0 (rel_body j f t x (Pair s (fst b0))) <> NoFuel -> answer j m0 (key_request k0) <> NoFuel) -> answer j m (key_request k0) <> NoFuel).
        { intros m Hn k0 H. destruct m as [|m]; [contradiction Hn; reflexivity|].
          assert (Hb : ask j m (rel_body j f t x (Pair s (fst b0))) <> NoFuel).
          { intros E. apply Hn. cbn [answer answer1]. rewrite Ef, Et, Ei. cbn [obind]. unfold ask in E. rewrite rel_body_collect in E. rewrite E. reflexivity. }
          specialize (H m Hb). rewrite (ole_stop _ _ (answer_le j m (S m) (key_request k0) ltac:(lia)) H). exact H. }
        apply amid_bind in Hm as [(p & c3 & ms4 & ms5 & H4 & Hm & ->)|(e0 & H4 & ->)].
        + destruct (Hon _ _ _ _ H4 V2 ltac:(discriminate)) as (A1 & A2 & A3 & A4).
          pose proof (amid_grows Hd Hq _ _ _ _ _ _ Hm) as G4. apply (amid_done V) in Hm as [-> _]. rewrite app_nil_r.
          split; [exact A1|]. split; [intros k0 Hi; exact (grows_none _ _ _ G2 (A2 k0 Hi))|].
          split; [intros a _ k0 Hi; apply G4; exact (A3 p eq_refl k0 Hi)|].
          intros m Hn k0 Hi. apply (Hup m Hn k0). intros m0 Hb. exact (A4 m0 Hb k0 Hi).
        + destruct (Hon _ _ _ _ H4 V2 (abort_fuel _ Hf)) as (A1 & A2 & A3 & A4).
          split; [exact A1|]. split; [intros k0 Hi; exact (grows_none _ _ _ G2 (A2 k0 Hi))|].
          split; [intros a Ea; destruct (abort_not_done _ _ Ea)|].
          intros m Hn k0 Hi. apply (Hup m Hn k0). intros m0 Hb. exact (A4 m0 Hb k0 Hi).
      - intros c ms o c' Hm Hv Hf. cbn [level erased] in Hm. unfold has_attribute_erased in Hm. rewrite Hc in Hm.
        assert (Hnw : no_wipe (attr_body j e a)).
        { apply (R_attr_body (fun A p => no_wipe p)); [intros; exact I|apply no_wipe_bind|exact Hw]. }
        destruct (once_interp n (level j n) (attr_body j e a) Hgn Hnw IH _ _ _ _ Hm Hv Hf) as (A1 & A2 & A3 & A4).
        split; [exact A1|]. split; [exact A2|]. split; [exact A3|].
        intros m Hn k0 Hi. destruct m as [|m]; [contradiction Hn; reflexivity|].
        assert (Hb : ask j m (attr_body j e a) <> NoFuel).
        { intros E0. apply Hn. cbn [answer answer1]. unfold ask in E0. rewrite attr_body_any in E0. exact E0. }
        specialize (A4 m Hb k0 Hi). rewrite (ole_stop _ _ (answer_le j m (S m) (key_request k0) ltac:(lia)) A4). exact A4.
    Qed.
    Lemma once_client n {A} (p : PR A) : no_wipe p -> once (client j n p) (fun n => ask j n p).
    Proof. intros Hnw. unfold client. rewrite Hc. apply (once_interp n); [apply level_good; assumption|exact Hnw|apply once_level]. Qed.
  End Once.
End L.
