From Coq Require Import String Ascii ZArith List Bool Lia.
From Verif Require Import M_Outcome M_Ints M_Value M_Types M_Qualifier M_Search M_Stat M_StatMap M_HashMap M_Registry M_Serde M_Bytes
  S_Search S_StatMap S_Demo S_Serde S_Bytes L_Outcome L_StatMap L_StatMap2 L_StatMap3 L_StatMap4 L_StatMap5 L_Serde L_SerdeProofs L_Bytes.
Import ListNotations.
Local Open Scope Z_scope.

Section Back.
  Context {P : Prog} {Q : QFlag} (N : StatNames P) (C : BCodec P Q).

  Lemma put_qual_back q : bflag_back C (any_of q) -> bflag_back C (all_of q) -> reads_back (put_qual C) (take_qual C) q.
  Proof.
    intros (a & A1 & A2) (b & B1 & B2). exists (a ++ b). unfold put_qual. rewrite A1, B1. split; [reflexivity|].
    refine (spells_bind _ (fun x bs => let? p := b_qtake C bs in ok (Qual x (fst p), snd p)) _ _ _ _ A2 _).
    pose proof (spells_map (b_qtake C) (fun y => Qual (any_of q) y) _ _ B2) as H. destruct q. exact H.
  Qed.
  Lemma value_spells T v bs : b_serial C T = true -> ok_ty P (vt_value P T) ->
    spells (b_vtake C (vt_value P T)) bs v -> spells (take_value C T) bs (Buf (vt_value P T) v).
  Proof.
    intros S1 F H. apply (spells_ext (fun l => let? p := b_vtake C (vt_value P T) l in ok (Buf (vt_value P T) (fst p), snd p))).
    - intros l. unfold take_value. rewrite S1. unfold ok_ty in F. rewrite F. cbn [obind].
      destruct (b_vtake C (vt_value P T) l) as [[[x r]|]|p| |]; cbn [rbind obind fst snd ok]; try reflexivity.
      unfold buf_from. rewrite F. reflexivity.
    - exact (spells_map _ (fun y => Buf (vt_value P T) y) _ _ H).
  Qed.
  Lemma stat_spells r s n : b_utf8 C n = true -> Z.of_nat (String.length n) < 2 ^ 64 -> reg_get r n = Some s ->
    spells (take_stat C (WReg r)) (put_str n) s.
  Proof.
    intros U L G. rewrite <- (app_nil_r (put_str n)).
    refine (spells_bind _ (fun x bs => match reg_get r x with Some s => ok (s, bs) | None => err end) _ _ _ _ (put_str_spells _ n U L) _).
    rewrite G. apply spells_ret.
  Qed.
  Lemma entry_back r e : bstorable N C r e -> reads_back (put_entry N C) (take_entry C (WReg r)) e.
  Proof.
    intros ((S1 & F & v & Ev & dv & V1 & V2) & QA & QB & n & N1 & N2 & N3 & N4).
    destruct (put_qual_back _ QA QB) as (dq & Q1 & Q2).
    exists (put_u64 3 ++ dq ++ put_str n ++ dv). split.
    - unfold put_entry. rewrite Q1, rbind_ok_l, N1. cbn [obind]. unfold put_value. rewrite S1, Ev.
      rewrite (buf_ref_ok P _ v F). cbn [obind]. rewrite V1. reflexivity.
    - refine (spells_bind take_u64 (fun k bs => if k <? 1 then err else
        let? q := take_qual C bs in
        if k <? 2 then err else
        let? s := take_stat C (WReg r) (snd q) in
        if k <? 3 then err else
        let? b := take_value C (si_ty (fst s)) (snd s) in
        ok (Entry (fst s) (fst q) (fst b), snd b)) _ _ 3 _ (put_u64_spells 3 ltac:(lia)) _).
      change (3 <? 1) with false. change (3 <? 2) with false. change (3 <? 3) with false. cbv iota.
      refine (spells_bind (take_qual C) (fun q bs => let? s := take_stat C (WReg r) bs in
        let? b := take_value C (si_ty (fst s)) (snd s) in ok (Entry (fst s) q (fst b), snd b)) _ _ _ _ Q2 _).
      refine (spells_bind (take_stat C (WReg r)) (fun s bs => let? b := take_value C (si_ty s) bs in ok (Entry s (e_qual e) (fst b), snd b)) _ _ _ _ (stat_spells r _ n N3 N4 N2) _).
      pose proof (spells_map _ (fun b => Entry (e_stat e) (e_qual e) b) _ _ (value_spells _ v dv S1 F V2)) as H. cbn beta in H.
      rewrite <- Ev in H. destruct e. exact H.
  Qed.
  Lemma entries_back r m : (forall e, In e m -> bstorable N C r e) ->
    reads_back (put_entries N C) (take_entries C (WReg r) (List.length m)) m.
  Proof.
    induction m as [|e m IH]; intros H; [exists []; split; [reflexivity|apply spells_ret]|].
    destruct (entry_back r e (H e (or_introl eq_refl))) as (b1 & E1 & E2).
    destruct (IH (fun x Hx => H x (or_intror Hx))) as (b2 & I1 & I2).
    exists (b1 ++ b2). cbn [put_entries]. rewrite E1, rbind_ok_l, I1. split; [reflexivity|].
    refine (spells_bind _ (fun x bs => let? y := take_entries C (WReg r) (List.length m) bs in ok (x :: fst y, snd y)) _ _ _ _ E2 _).
    exact (spells_map _ (fun y => e :: y) _ _ I2).
  Qed.
  Lemma map_back r m : (forall e, In e m -> bstorable N C r e) -> Z.of_nat (List.length m) < 2 ^ 64 ->
    reads_back (put_map N C) (take_map C (WReg r)) m.
  Proof.
    intros H L. destruct (entries_back r m H) as (bs & E1 & E2).
    exists (put_u64 (Z.of_nat (List.length m)) ++ bs). unfold put_map. rewrite E1. split; [reflexivity|].
    refine (spells_bind take_u64 (fun n => take_entries C (WReg r) (Z.to_nat n)) _ _ _ _ (put_u64_spells _ (conj (Nat2Z.is_nonneg _) L)) _).
    rewrite Nat2Z.id. exact E2.
  Qed.

  (** *** What is accepted *)
  Hypothesis HQ : hands_on (b_qtake C).
  Hypothesis HV : forall t, hands_on (b_vtake C t).
  Lemma entry_iff w bs e rest : Forall is_byte bs -> (take_entry C w bs = ok (e, rest) <-> entry_bytes C w bs e rest).
  Proof.
    intros F. unfold take_entry. rewrite rbind_ok. split.
    - intros ([k b1] & H1 & H2). apply (take_varint_iff 10 1 _ _ _ F) in H1. destruct H1 as (l & -> & V). cbn [fst snd] in H2.
      apply forall_app_r in F.
      destruct (Z.ltb_spec k 1) as [|K1]; [discriminate|]. apply rbind_ok in H2. destruct H2 as ([q b3] & H1 & H2). cbn [fst snd] in H2.
      destruct (Z.ltb_spec k 2) as [|K2]; [discriminate|]. apply rbind_ok in H2. destruct H2 as ([s b4] & H3 & H2). cbn [fst snd] in H2.
      destruct (Z.ltb_spec k 3) as [|K3]; [discriminate|]. apply rbind_ok in H2. destruct H2 as ([b r'] & H4 & H2). cbn [fst snd] in H2.
      injection H2 as <- <-. cbn [e_stat e_qual e_val].
      unfold take_qual in H1. apply rbind_ok in H1. destruct H1 as ([x b2] & X1 & X2). cbn [fst snd] in X2.
      apply rbind_ok in X2. destruct X2 as ([y b3'] & Y1 & Y2). cbn [fst snd] in Y2. injection Y2 as <- <-.
      unfold take_stat in H3. apply rbind_ok in H3. destruct H3 as ([n b4'] & Z1 & Z2). cbn [fst snd] in Z2.
      destruct w as [| |r]; try discriminate. destruct (reg_get r n) as [s'|] eqn:G; [|discriminate]. injection Z2 as <- <-.
      apply take_str_iff in Z1; [|eapply HQ; [|exact Y1]; eapply HQ; [|exact X1]; exact F].
      destruct Z1 as (ln & -> & Z1 & Z2).
      unfold take_value in H4. destruct (b_serial C (si_ty s')) eqn:S1; [|discriminate].
      destruct (validate_ty P (vt_value P (si_ty s'))) as [[]|p| |] eqn:VT; try discriminate. cbn [obind] in H4.
      apply rbind_ok in H4. destruct H4 as ([v rr] & V1 & V2). cbn [fst snd] in V2. unfold buf_from in V2. rewrite VT in V2.
      cbn [obind] in V2. injection V2 as <- <-.
      exists l, k, b1, b2, (ln ++ text n ++ b4'), ln, n, b4', r, v. repeat split; auto; lia.
    - intros (l & k & b1 & b2 & b3 & ln & n & b4 & r & v & -> & V & K & X1 & Y1 & -> & Z1 & Z2 & -> & G & S1 & Fi & V1 & Ev).
      exists (k, b1). split; [apply (take_varint_iff 10 1 _ _ _ F); eauto|]. cbn [fst snd]. apply forall_app_r in F.
      rewrite (proj2 (Z.ltb_ge k 1)), (proj2 (Z.ltb_ge k 2)), (proj2 (Z.ltb_ge k 3)) by lia.
      unfold take_qual. rewrite X1, rbind_ok_l. cbn [snd fst]. rewrite Y1, !rbind_ok_l. cbn [snd fst].
      unfold take_stat. rewrite (proj2 (take_str_iff (b_utf8 C) (ln ++ text n ++ b4) n b4
        ltac:(eapply HQ; [|exact Y1]; eapply HQ; [|exact X1]; exact F))) by eauto.
      rewrite rbind_ok_l. cbn [fst snd]. rewrite G, rbind_ok_l. cbn [fst snd]. unfold take_value. rewrite S1.
      unfold fits in Fi. unfold buf_from. rewrite Fi. cbn [obind]. rewrite V1, !rbind_ok_l. cbn [rbind ok obind fst snd].
      rewrite <- Ev. destruct e as [s [x y] b]; reflexivity.
  Qed.
  Lemma entry_hands_on w : hands_on (take_entry C w).
  Proof.
    intros bs e rest F H. apply (entry_iff w _ _ _ F) in H.
    destruct H as (l & k & b1 & b2 & b3 & ln & n & b4 & r & v & -> & V & K & X1 & Y1 & -> & Z1 & Z2 & -> & G & S1 & Fi & V1 & Ev).
    apply forall_app_r in F. eapply HV; [|exact V1].
    assert (F3 : Forall is_byte (ln ++ text n ++ b4)) by (eapply HQ; [|exact Y1]; eapply HQ; [|exact X1]; exact F).
    apply forall_app_r, forall_app_r in F3. exact F3.
  Qed.
  Lemma entries_iff w : forall m n bs rest, Forall is_byte bs ->
    (take_entries C w n bs = ok (m, rest) <-> n = List.length m /\ entries_bytes C w bs m rest).
  Proof.
    intros m n. revert m. induction n as [|n IH]; intros m bs rest F.
    - cbn [take_entries]. split.
      + intros H. injection H as <- <-. split; [reflexivity|constructor].
      + intros [L E]. destruct m; [|discriminate]. inversion E; subst. reflexivity.
    - cbn [take_entries]. rewrite rbind_ok. split.
      + intros ([e b1] & H1 & H2). cbn [fst snd] in H2. apply rbind_ok in H2. destruct H2 as ([m' r'] & H2 & H3). cbn [fst snd] in H3.
        injection H3 as <- <-. pose proof (entry_hands_on w _ _ _ F H1) as F1. apply (IH _ _ _ F1) in H2. destruct H2 as [-> H2].
        split; [reflexivity|]. econstructor; [apply (entry_iff w _ _ _ F), H1|exact H2].
      + intros [L E]. inversion E as [|? e b1 m' ? E1 E2]; subst; [discriminate|].
        apply (entry_iff w _ _ _ F) in E1. pose proof (entry_hands_on w _ _ _ F E1) as F1.
        exists (e, b1). split; [exact E1|]. cbn [fst snd].
        rewrite (proj2 (IH m' b1 rest F1)); [reflexivity|]. split; [cbn in L; lia|exact E2].
  Qed.
  Lemma map_iff w bs m rest : Forall is_byte bs ->
    (take_map C w bs = ok (m, rest) <->
     exists l b1, bs = l ++ b1 /\ varint 10 1 l (Z.of_nat (List.length m)) /\ entries_bytes C w b1 m rest).
  Proof.
    intros F. unfold take_map. rewrite rbind_ok. split.
    - intros ([n b1] & H1 & H2). cbn [fst snd] in H2. apply (take_varint_iff 10 1 _ _ _ F) in H1. destruct H1 as (l & -> & V).
      pose proof F as F0. apply forall_app_r in F. apply (entries_iff w _ _ _ _ F) in H2. destruct H2 as [L E].
      exists l, b1. split; [reflexivity|]. split; [|exact E]. apply Forall_app in F0.
      pose proof (digits_range 10 1 ltac:(lia) l n (proj1 F0) V). rewrite <- L, Z2Nat.id by lia. exact V.
    - intros (l & b1 & -> & V & E). exists (Z.of_nat (List.length m), b1). split; [apply (take_varint_iff 10 1 _ _ _ F); eauto|].
      cbn [fst snd]. apply forall_app_r in F. apply (entries_iff w _ _ _ _ F). rewrite Nat2Z.id. auto.
  Qed.
End Back.
