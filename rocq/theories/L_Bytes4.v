(** Types without serialization, and undefined behaviour, in the byte format. *)
From Coq Require Import String Ascii ZArith List Bool Lia.
From Verif Require Import M_Outcome M_Ints M_Value M_Types M_Qualifier M_Search M_Stat M_StatMap M_HashMap M_Registry M_Serde M_Bytes
  S_Search S_StatMap S_Demo S_Serde S_Bytes L_Outcome L_StatMap L_StatMap2 L_StatMap3 L_StatMap4 L_StatMap5 L_Demo L_Serde L_SerdeProofs L_Bytes L_Bytes2 L_Bytes3.
Import ListNotations.
Local Open Scope Z_scope.

Lemma C70_no_serialize_proof :
  forall (P : Prog) (Q : QFlag) (N : StatNames P) (C : BCodec P Q),
  (forall m bs e, put_map N C m = ok bs -> In e m -> b_serial C (si_ty (e_stat e)) = true) /\
  (forall w bs m rest e, take_map C w bs = ok (m, rest) -> In e m -> b_serial C (si_ty (e_stat e)) = true) /\
  (forall T b, b_serial C T = false -> put_value C T b = Panics PNoSerialize) /\
  (forall T bs, b_serial C T = false -> take_value C T bs = Panics PNoSerialize).
Proof.
  intros P Q N C. split; [|split; [|split]].
  - intros m bs e H He. unfold put_map in H. apply rbind_ok in H. destruct H as (l & H & _). revert l H.
    induction m as [|x m IH]; intros l H; [destruct He|]. cbn [put_entries] in H. apply rbind_ok in H. destruct H as (y & H1 & H).
    apply rbind_ok in H. destruct H as (l' & H2 & _). destruct He as [->|He]; [|exact (IH He l' H2)].
    unfold put_entry in H1. apply rbind_ok in H1. destruct H1 as (q & _ & H1). destruct (sn_name N _ _); try discriminate H1. cbn [obind] in H1.
    apply rbind_ok in H1. destruct H1 as (v & H1 & _). unfold put_value in H1. destruct (b_serial C (si_ty (e_stat e))); [reflexivity|discriminate H1].
  - intros w bs m rest e H He. exact (proj1 (proj2 (proj2 (C70_typed_proof P Q C w bs m rest H)) e He)).
  - intros T b H. unfold put_value. rewrite H. reflexivity.
  - intros T d H. unfold take_value. rewrite H. reflexivity.
Qed.

Lemma rbind_defined {A B} (m : res A) (k : A -> res B) : m <> UB -> (forall x, m = ok x -> k x <> UB) -> rbind m k <> UB.
Proof. unfold rbind, ok. destruct m as [[x|]|p| |]; cbn; intros H K; try discriminate; [apply K; reflexivity|contradiction]. Qed.
Lemma returns_defined {A} (t : reader A) bs : returns t -> t bs <> UB.
Proof. intros H. destruct (H bs) as [o E]. rewrite E. discriminate. Qed.

Lemma C70_defined_proof :
  forall (P : Prog) (Q : QFlag) (C : BCodec P Q), (forall bs, b_qtake C bs <> UB) -> (forall t bs, b_vtake C t bs <> UB) ->
  forall (w : dworld P) bs, take_map C w bs <> UB.
Proof.
  intros P Q C HQ HV w bs. unfold take_map. apply rbind_defined; [apply returns_defined, take_varint_returns|]. intros [n b] _. cbn [fst snd].
  generalize (Z.to_nat n). clear n bs. intros n. revert b. induction n as [|n IH]; intros b; [discriminate|].
  cbn [take_entries]. apply rbind_defined; [|intros [e b1] _; apply rbind_defined; [apply IH|intros; discriminate]].
  unfold take_entry. apply rbind_defined; [apply returns_defined, take_varint_returns|]. intros [k b1] _. cbn [fst snd].
  destruct (k <? 1); [discriminate|]. apply rbind_defined.
  { unfold take_qual. apply rbind_defined; [apply HQ|]. intros x _. apply rbind_defined; [apply HQ|]. discriminate. }
  intros [q b2] _. cbn [fst snd]. destruct (k <? 2); [discriminate|]. apply rbind_defined.
  { unfold take_stat. apply rbind_defined; [apply returns_defined, take_str_returns|]. intros [s b3] _. cbn [fst snd]. destruct w; try discriminate. destruct (reg_get r s); discriminate. }
  intros [s b3] _. cbn [fst snd]. destruct (k <? 3); [discriminate|]. apply rbind_defined; [|discriminate].
  unfold take_value. destruct (b_serial C (si_ty s)); [|discriminate]. destruct (validate_ty P (vt_value P (si_ty s))) as [[]|p| |] eqn:F; cbn [obind]; try discriminate.
  - apply rbind_defined; [apply HV|]. intros [v b4] _. unfold buf_from. cbn [fst snd]. rewrite F. discriminate.
  - unfold validate_ty, validate in F. destruct (_ || _); [destruct (24 <? _)|]; discriminate.
Qed.

Lemma C70_put_defined_proof :
  forall (P : Prog) (Q : QFlag) (N : StatNames P) (C : BCodec P Q), (forall T i, sn_name N T i <> UB) ->
  (forall x, b_qput C x <> UB) -> (forall t v, b_vput C t v <> UB) ->
  forall m : map_t P Q, (forall e, In e m -> b_ty (e_val e) = vt_value P (si_ty (e_stat e))) -> put_map N C m <> UB.
Proof.
  intros P Q N C HN HQ HV m T. unfold put_map. apply rbind_defined; [|discriminate].
  induction m as [|e m IH]; [discriminate|]. cbn [put_entries]. apply rbind_defined.
  - unfold put_entry. apply rbind_defined; [unfold put_qual; apply rbind_defined; [apply HQ|]; intros; apply rbind_defined; [apply HQ|discriminate]|].
    intros q _. pose proof (HN (si_ty (e_stat e)) (si_index (e_stat e))) as Hn. destruct (sn_name N _ _); cbn [obind]; try discriminate; [|congruence].
    apply rbind_defined; [|discriminate]. unfold put_value. destruct (b_serial C _); [|discriminate].
    specialize (T e (or_introl eq_refl)). destruct (e_val e) as [t v]. cbn [b_ty] in T. subst t. unfold buf_ref.
    pose proof (@validate_not_ub P (vt_value P (si_ty (e_stat e)))) as Hv. destruct (validate_ty P _); cbn [obind]; try discriminate; [|congruence].
    rewrite cast_val_same. cbn [obind]. apply HV.
  - intros d _. apply rbind_defined; [|discriminate]. apply IH. intros e' He. apply T. right. exact He.
Qed.
