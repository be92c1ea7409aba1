From Coq Require Import String Ascii ZArith List Bool Lia SpecFloat.
From Flocq Require Import Core BinarySingleNaN.
From Flocq Require Binary Bits.
From Verif Require Import M_Outcome M_Ints M_Ratio M_Float M_Value M_Types M_Qualifier M_Search M_Stat M_StatMap M_HashMap M_Pair M_Defaults M_Querier M_Poison M_Registry M_Serde M_Bytes M_ValueSerde M_ValueBytes
  S_Search S_StatMap S_Demo S_Registry S_Serde S_Bytes S_Totals S_ValueSerde S_ValueBytes
  L_Outcome L_StatMap L_StatMap2 L_StatMap3 L_Serde L_Bytes L_Bytes3 L_ValueSerde L_ValueSerde2 L_ValueSerde3 L_ValueBytes.
Import ListNotations.
Local Open Scope Z_scope.

(** ** Floats, the statements *)
Lemma C72_floats_proof :
  (forall x, bback bleaf_f32 x) /\ (forall x, bback bleaf_f64 x) /\
  (forall bs x rest, btake bleaf_f32 bs = ok (x, rest) <-> exists l, bs = l ++ rest /\ List.length l = 4%nat /\ B2SF x = ieee 23 8 (little l)) /\
  (forall bs x rest, btake bleaf_f64 bs = ok (x, rest) <-> exists l, bs = l ++ rest /\ List.length l = 8%nat /\ B2SF x = ieee 52 11 (little l)).
Proof.
  split; [exact bback_f32|]. split; [exact bback_f64|]. split; intros bs x rest; cbn [bleaf_f32 bleaf_f64 btake]; rewrite rbind_ok; split.
  - intros ([n r] & H1 & H2). apply take_le_iff in H1. destruct H1 as (l & -> & Hl & ->). cbn [fst snd] in H2. injection H2 as <- <-.
    exists l. split; [reflexivity|]. split; [exact Hl|]. exact (ieee_spec 23 8 eq_refl eq_refl eq_refl _).
  - intros (l & -> & Hl & H). exists (little l, rest). split; [apply take_le_iff; eauto|]. cbn [fst snd]. do 3 f_equal.
    apply B2SF_inj. rewrite H. exact (ieee_spec 23 8 eq_refl eq_refl eq_refl _).
  - intros ([n r] & H1 & H2). apply take_le_iff in H1. destruct H1 as (l & -> & Hl & ->). cbn [fst snd] in H2. injection H2 as <- <-.
    exists l. split; [reflexivity|]. split; [exact Hl|]. exact (ieee_spec 52 11 eq_refl eq_refl eq_refl _).
  - intros (l & -> & Hl & H). exists (little l, rest). split; [apply take_le_iff; eauto|]. cbn [fst snd]. do 3 f_equal.
    apply B2SF_inj. rewrite H. exact (ieee_spec 52 11 eq_refl eq_refl eq_refl _).
Qed.

(** ** Structs and enums *)
Lemma bback_ratio (I : bleaf Z) r : bback I (numer r) -> bback I (denom r) -> denom r <> 0 -> bback (bleaf_ratio I) r.
Proof.
  intros H1 H2 H3. destruct r as [n d]. cbn [numer denom] in *. unfold bback. cbn [bleaf_ratio bput btake numer denom].
  refine (spells_bind (btake I) (fun n bs => let? d := btake I bs in if fst d =? 0 then err else ok (Frac n (fst d), snd d)) _ _ _ _ H1 _).
  rewrite <- (app_nil_r (bput I d)).
  refine (spells_bind (btake I) (fun d bs => if d =? 0 then err else ok (Frac n d, bs)) _ _ _ _ H2 _).
  rewrite (proj2 (Z.eqb_neq d 0) H3). apply spells_ret.
Qed.
Lemma bback_quad {A M} (LA : bleaf A) (LM : bleaf M) v : bback LA (addend v) -> bback LA (vmin v) -> bback LA (vmax v) -> bback LM (mult v) ->
  bback (bleaf_quad LA LM) v.
Proof. destruct v as [a lo hi m]. intros H1 H2 H3 H4. exact (four _ _ _ _ (fun a lo hi m => Quad a lo hi m) _ _ _ _ _ _ _ _ H1 H2 H3 H4). Qed.
Lemma bback_percent {A M} (LA : bleaf A) (LM : bleaf M) v : bback LA (addend v) -> bback LA (vmin v) -> bback LA (vmax v) -> bback LM (mult v) ->
  bback (bleaf_percent LA LM) v.
Proof. destruct v as [a lo hi m]. intros H1 H2 H3 H4. exact (four _ _ _ _ (fun a m lo hi => Quad a lo hi m) _ _ _ _ _ _ _ _ H1 H4 H2 H3). Qed.
Lemma bback_mult {F : FloatT} (LF : bleaf (fcar F)) v : bback LF (t_min v) -> bback LF (t_max v) -> bback LF (t_mult v) -> bback (bleaf_mult LF) v.
Proof. destruct v as [lo hi m]. intros H1 H2 H3. exact (three _ _ _ (fun lo hi m => @Tri F lo hi m) _ _ _ _ _ _ H1 H2 H3). Qed.
Lemma bback_flags {G : FlagsT} (LG : bleaf (gcar G)) v : bback LG (f_not v) -> bback LG (f_or v) -> bback (bleaf_flags LG) v.
Proof. destruct v as [n o]. intros H1 H2. exact (two _ _ (fun n o => @FlagsV G n o) _ _ _ _ H1 H2). Qed.
Lemma bback_prio {A} (LA : bleaf A) v : bback LA (p_value v) -> small I32 (p_priority v) -> bback (bleaf_prio LA) v.
Proof. destruct v as [x p]. intros H1 H2. apply bback_int in H2. exact (two _ _ (fun x p => Prio x p) _ _ _ _ H1 H2). Qed.
Lemma bback_bool b : bback bleaf_bool b.
Proof. apply put_bool_spells. Qed.
Lemma bback_str utf8 s : utf8 s = true -> Z.of_nat (String.length s) < 2 ^ 64 -> bback (bleaf_str utf8) s.
Proof. apply put_str_spells. Qed.

(** A variant: its number and then what [f] reads. *)
Lemma variant {A} (f : Z -> reader A) i bs x : 0 <= i < 2 ^ 32 -> spells (f i) bs x ->
  spells (fun l => let? n := take_u32 l in f (fst n) (snd n)) (put_u32 i ++ bs) x.
Proof. intros H. apply spells_bind. apply put_u32_spells. exact H. Qed.
Lemma u32_gives l b n : Forall is_byte (l ++ b) -> varint 5 15 l n -> take_u32 (l ++ b) = ok (n, b).
Proof. intros F V. apply (take_varint_iff 5 15 _ _ _ F). exists l. split; [reflexivity|exact V]. Qed.
Definition once_take {A} (LA : bleaf A) (i : Z) : reader (once A) := fun bs =>
  match i with
  | 0 => ok (NotFound, bs)
  | 1 => let? a := btake LA bs in ok (Found (fst a), snd a)
  | 2 => ok (FoundMultiple, bs)
  | _ => err
  end.
Lemma bback_once {A} (LA : bleaf A) v : (forall a, v = Found a -> bback LA a) -> bback (bleaf_once LA) v.
Proof.
  intros H. unfold bback. apply (spells_ext (fun l => let? n := take_u32 l in once_take LA (fst n) (snd n))); [reflexivity|].
  destruct v as [|a|]; cbn [bleaf_once bput].
  - rewrite <- (app_nil_r (put_u32 0)). apply variant; [lia|]. apply spells_ret.
  - apply variant; [lia|]. exact (spells_map (btake LA) Found _ _ (H a eq_refl)).
  - rewrite <- (app_nil_r (put_u32 2)). apply variant; [lia|]. apply spells_ret.
Qed.
Section Op.
  Context {S : StatValue} (La : bleaf (addT S)) (Lm : bleaf (mulT S)) (Lb : bleaf (bitT S)) (Lr : bleaf (boundsT S)) (Lz : bleaf (baseT S)).
  Definition op_take (i : Z) : reader (stat_op S) := fun bs =>
    match i with
    | 0 => let? x := btake La bs in ok (OAdd (fst x), snd x)
    | 1 => let? x := btake Lm bs in ok (OMul (fst x), snd x)
    | 2 => let? x := btake Lb bs in ok (OOr (fst x), snd x)
    | 3 => let? x := btake Lb bs in ok (ONot (fst x), snd x)
    | 4 => let? x := btake Lr bs in ok (OMin (fst x), snd x)
    | 5 => let? x := btake Lr bs in ok (OMax (fst x), snd x)
    | 6 => let? x := btake Lz bs in ok (OBase (fst x), snd x)
    | _ => err
    end.
  Lemma bback_op o : op_bback La Lm Lb Lr Lz o -> bback (bleaf_op La Lm Lb Lr Lz) o.
  Proof.
    intros H. unfold bback. apply (spells_ext (fun l => let? n := take_u32 l in op_take (fst n) (snd n))); [reflexivity|].
    destruct o as [x|x|x|x|x|x|x]; cbn [bleaf_op bput]; apply variant; try lia; cbn [op_bback] in H;
      (refine (spells_map _ _ _ _ H)).
  Qed.
  Lemma op_reads bs o rest : Forall is_byte bs -> (btake (bleaf_op La Lm Lb Lr Lz) bs = ok (o, rest) <->
    exists l b, bs = l ++ b /\
    match o with
    | OAdd x => varint 5 15 l 0 /\ btake La b = ok (x, rest)
    | OMul x => varint 5 15 l 1 /\ btake Lm b = ok (x, rest)
    | OOr x => varint 5 15 l 2 /\ btake Lb b = ok (x, rest)
    | ONot x => varint 5 15 l 3 /\ btake Lb b = ok (x, rest)
    | OMin x => varint 5 15 l 4 /\ btake Lr b = ok (x, rest)
    | OMax x => varint 5 15 l 5 /\ btake Lr b = ok (x, rest)
    | OBase x => varint 5 15 l 6 /\ btake Lz b = ok (x, rest)
    end).
  Proof.
    intros F. change (btake (bleaf_op La Lm Lb Lr Lz) bs) with (let? n := take_u32 bs in op_take (fst n) (snd n)). rewrite rbind_ok. split.
    - intros ([i b] & H1 & H2). apply (take_varint_iff 5 15 _ _ _ F) in H1. destruct H1 as (l & -> & V). cbn [fst snd] in H2. exists l, b.
      split; [reflexivity|]. unfold op_take in H2.
      destruct i as [|[[[p|p|]|[p|p|]|]|[[p|p|]|[p|p|]|]|]|p]; try discriminate H2;
        apply rbind_ok in H2; destruct H2 as ([x r] & H2 & H3); cbn [fst snd] in H3; injection H3 as <- <-; split; assumption.
    - intros (l & b & -> & H). destruct o as [x|x|x|x|x|x|x]; destruct H as [V H];
        (eexists; split; [exact (u32_gives l b _ F V)|]); cbn [fst snd op_take]; rewrite H; reflexivity.
  Qed.
End Op.

(** ** What is read *)
Lemma C72_fields_proof :
  (forall (I : bleaf Z) bs r rest, btake (bleaf_ratio I) bs = ok (r, rest) <->
    exists b, btake I bs = ok (numer r, b) /\ btake I b = ok (denom r, rest) /\ denom r <> 0) /\
  (forall A M (LA : bleaf A) (LM : bleaf M) bs v rest, btake (bleaf_quad LA LM) bs = ok (v, rest) <->
    exists b1 b2 b3, btake LA bs = ok (addend v, b1) /\ btake LA b1 = ok (vmin v, b2) /\ btake LA b2 = ok (vmax v, b3) /\ btake LM b3 = ok (mult v, rest)) /\
  (forall A M (LA : bleaf A) (LM : bleaf M) bs v rest, btake (bleaf_percent LA LM) bs = ok (v, rest) <->
    exists b1 b2 b3, btake LA bs = ok (addend v, b1) /\ btake LM b1 = ok (mult v, b2) /\ btake LA b2 = ok (vmin v, b3) /\ btake LA b3 = ok (vmax v, rest)) /\
  (forall F (LF : bleaf (fcar F)) bs v rest, btake (bleaf_mult LF) bs = ok (v, rest) <->
    exists b1 b2, btake LF bs = ok (t_min v, b1) /\ btake LF b1 = ok (t_max v, b2) /\ btake LF b2 = ok (t_mult v, rest)) /\
  (forall G (LG : bleaf (gcar G)) bs v rest, btake (bleaf_flags LG) bs = ok (v, rest) <->
    exists b1, btake LG bs = ok (f_not v, b1) /\ btake LG b1 = ok (f_or v, rest)) /\
  (forall A (LA : bleaf A) bs v rest, btake (bleaf_prio LA) bs = ok (v, rest) <->
    exists b1, btake LA bs = ok (p_value v, b1) /\ btake (bleaf_int I32) b1 = ok (p_priority v, rest)).
Proof.
  assert (X : forall A B (m : res A) (k : A -> res B) b, rbind m k = ok b <-> exists a, m = ok a /\ k a = ok b) by (intros; apply rbind_ok).
  repeat split; cbn [bleaf_ratio bleaf_quad bleaf_percent bleaf_mult bleaf_flags bleaf_prio btake].
  - intros H. apply X in H. destruct H as ([n b] & H1 & H). apply X in H. destruct H as ([d b'] & H2 & H). cbn [fst snd] in *.
    destruct (Z.eqb_spec d 0); [discriminate|]. injection H as <- <-. exists b. auto.
  - destruct r as [n d]. intros (b & H1 & H2 & H3). cbn [numer denom] in *. rewrite H1. cbn [rbind ok obind fst snd]. rewrite H2. cbn [rbind ok obind fst snd].
    rewrite (proj2 (Z.eqb_neq d 0) H3). reflexivity.
  - intros H. repeat (apply X in H; destruct H as ([? ?] & ? & H); cbn [fst snd] in *). injection H as <- <-. eauto 10.
  - destruct v as [w1 w2 w3 w4]. intros (b1 & b2 & b3 & H1 & H2 & H3 & H4). cbn [addend vmin vmax mult] in *.
    rewrite H1. cbn [rbind ok obind fst snd]. rewrite H2. cbn [rbind ok obind fst snd]. rewrite H3. cbn [rbind ok obind fst snd]. rewrite H4. reflexivity.
  - intros H. repeat (apply X in H; destruct H as ([? ?] & ? & H); cbn [fst snd] in *). injection H as <- <-. eauto 10.
  - destruct v as [w1 w2 w3 w4]. intros (b1 & b2 & b3 & H1 & H2 & H3 & H4). cbn [addend vmin vmax mult] in *.
    rewrite H1. cbn [rbind ok obind fst snd]. rewrite H2. cbn [rbind ok obind fst snd]. rewrite H3. cbn [rbind ok obind fst snd]. rewrite H4. reflexivity.
  - intros H. repeat (apply X in H; destruct H as ([? ?] & ? & H); cbn [fst snd] in *). injection H as <- <-. eauto 10.
  - destruct v as [w1 w2 w3]. intros (b1 & b2 & H1 & H2 & H3). cbn [t_min t_max t_mult] in *.
    rewrite H1. cbn [rbind ok obind fst snd]. rewrite H2. cbn [rbind ok obind fst snd]. rewrite H3. reflexivity.
  - intros H. repeat (apply X in H; destruct H as ([? ?] & ? & H); cbn [fst snd] in *). injection H as <- <-. eauto 10.
  - destruct v as [w1 w2]. intros (b1 & H1 & H2). cbn [f_not f_or] in *. rewrite H1. cbn [rbind ok obind fst snd]. rewrite H2. reflexivity.
  - intros H. repeat (apply X in H; destruct H as ([? ?] & ? & H); cbn [fst snd] in *). injection H as <- <-. eauto 10.
  - destruct v as [w1 w2]. intros (b1 & H1 & H2). cbn [p_value p_priority] in *. rewrite H1. cbn [rbind ok obind fst snd]. rewrite H2. reflexivity.
Qed.
Lemma once_reads {A} (LA : bleaf A) bs v rest : Forall is_byte bs -> (btake (bleaf_once LA) bs = ok (v, rest) <->
  exists l b, bs = l ++ b /\
  match v with
  | NotFound => varint 5 15 l 0 /\ b = rest
  | Found a => varint 5 15 l 1 /\ btake LA b = ok (a, rest)
  | FoundMultiple => varint 5 15 l 2 /\ b = rest
  end).
Proof.
  intros F. change (btake (bleaf_once LA) bs) with (let? n := take_u32 bs in once_take LA (fst n) (snd n)). rewrite rbind_ok. split.
  - intros ([i b] & H1 & H2). apply (take_varint_iff 5 15 _ _ _ F) in H1. destruct H1 as (l & -> & V). cbn [fst snd] in H2. exists l, b.
    split; [reflexivity|]. unfold once_take in H2.
    destruct i as [|[p|[p|p|]|]|p]; try discriminate H2.
    + injection H2 as <- <-. auto.
    + injection H2 as <- <-. auto.
    + apply rbind_ok in H2; destruct H2 as ([x r] & H2 & H3); cbn [fst snd] in H3; injection H3 as <- <-; split; assumption.
  - intros (l & b & -> & H). destruct v as [|a|]; destruct H as [V H];
      (eexists; split; [exact (u32_gives l b _ F V)|]); cbn [fst snd once_take].
    + subst. reflexivity.
    + rewrite H. reflexivity.
    + subst. reflexivity.
Qed.
Lemma C72_variants_proof :
  (forall A (LA : bleaf A) bs v rest, Forall is_byte bs -> (btake (bleaf_once LA) bs = ok (v, rest) <->
     exists l b, bs = l ++ b /\
     match v with
     | NotFound => varint 5 15 l 0 /\ b = rest
     | Found a => varint 5 15 l 1 /\ btake LA b = ok (a, rest)
     | FoundMultiple => varint 5 15 l 2 /\ b = rest
     end)) /\
  (forall S (La : bleaf (addT S)) Lm Lb Lr Lz bs o rest, Forall is_byte bs -> (btake (bleaf_op La Lm Lb Lr Lz) bs = ok (o, rest) <->
     exists l b, bs = l ++ b /\
     match o with
     | OAdd x => varint 5 15 l 0 /\ btake La b = ok (x, rest)
     | OMul x => varint 5 15 l 1 /\ btake Lm b = ok (x, rest)
     | OOr x => varint 5 15 l 2 /\ btake Lb b = ok (x, rest)
     | ONot x => varint 5 15 l 3 /\ btake Lb b = ok (x, rest)
     | OMin x => varint 5 15 l 4 /\ btake Lr b = ok (x, rest)
     | OMax x => varint 5 15 l 5 /\ btake Lr b = ok (x, rest)
     | OBase x => varint 5 15 l 6 /\ btake Lz b = ok (x, rest)
     end)) /\
  (forall bs e rest, btake bleaf_none bs <> ok (e, rest)).
Proof.
  split; [intros; apply once_reads; assumption|]. split; [intros; apply op_reads; assumption|]. intros bs e. destruct e.
Qed.

(** ** What is written *)
Lemma C72_integers_proof :
  forall t, (forall n, small t n -> bback (bleaf_int t) n) /\
  (forall bs n rest, Forall is_byte bs -> (btake (bleaf_int t) bs = ok (n, rest) <-> exists l, bs = l ++ rest /\ int_bytes t l n)) /\
  (forall bs n rest, Forall is_byte bs -> btake (bleaf_int t) bs = ok (n, rest) -> small t n).
Proof.
  intros t. split; [apply bback_int|]. split; [intros; apply int_iff; assumption|].
  intros bs n rest F H. apply (int_iff t bs n rest F) in H. destruct H as (l & -> & H). apply Forall_app in F. exact (int_range t l n (proj1 F) H).
Qed.
Lemma bback_small_ratio t r : small_ratio t r -> bback (bleaf_ratio (bleaf_int t)) r.
Proof. intros (H1 & H2 & H3). apply bback_ratio; [apply bback_int; exact H1|apply bback_int; exact H2|exact H3]. Qed.
Lemma C72_round_trip_proof :
  (forall t r, small_ratio t r -> bback (bleaf_ratio (bleaf_int t)) r) /\
  (forall A M (LA : bleaf A) (LM : bleaf M) v, bback LA (addend v) -> bback LA (vmin v) -> bback LA (vmax v) -> bback LM (mult v) ->
     bback (bleaf_quad LA LM) v /\ bback (bleaf_percent LA LM) v) /\
  (forall F (LF : bleaf (fcar F)) v, bback LF (t_min v) -> bback LF (t_max v) -> bback LF (t_mult v) -> bback (bleaf_mult LF) v) /\
  (forall G (LG : bleaf (gcar G)) v, bback LG (f_not v) -> bback LG (f_or v) -> bback (bleaf_flags LG) v) /\
  (forall b, bback bleaf_exists b) /\
  (forall utf8 s, utf8 s = true -> Z.of_nat (String.length s) < 2 ^ 64 -> bback (bleaf_str utf8) s) /\
  (forall A (LA : bleaf A) v, (forall a, v = Found a -> bback LA a) -> bback (bleaf_once LA) v) /\
  (forall A (LA : bleaf A) v, bback LA (p_value v) -> small I32 (p_priority v) -> bback (bleaf_prio LA) v) /\
  (forall S (La : bleaf (addT S)) Lm Lb Lr Lz o, op_bback La Lm Lb Lr Lz o -> bback (bleaf_op La Lm Lb Lr Lz) o).
Proof.
  split; [exact bback_small_ratio|]. split; [intros; split; [apply bback_quad|apply bback_percent]; assumption|].
  split; [intros; apply bback_mult; assumption|]. split; [intros; apply bback_flags; assumption|]. split; [exact bback_bool|].
  split; [exact bback_str|]. split; [intros; apply bback_once; assumption|]. split; [intros; apply bback_prio; assumption|].
  intros; apply bback_op; assumption.
Qed.
Lemma C72_no_prefix_proof :
  forall A (L : bleaf A) x y s, bback L x -> bback L y -> bput L y = bput L x ++ s -> x = y /\ s = [].
Proof.
  intros A L x y s [H1 _] [H2 _] E. specialize (H2 []). rewrite app_nil_r, E, H1 in H2. injection H2 as -> ->. auto.
Qed.

(** ** Nothing panics *)
Lemma tame_bind {A B} (t1 : reader A) (t2 : A -> reader B) :
  returns t1 -> hands_on t1 -> (forall a, returns (t2 a)) -> (forall a, hands_on (t2 a)) ->
  returns (fun bs => let? p := t1 bs in t2 (fst p) (snd p)) /\ hands_on (fun bs => let? p := t1 bs in t2 (fst p) (snd p)).
Proof.
  intros R1 H1 R2 H2. split.
  - intros bs. apply rbind_done; [apply R1|]. intros [a r] _. apply R2.
  - intros bs x rest F E. apply rbind_ok in E. destruct E as ([a r] & E1 & E2). apply (H2 a r x rest); [apply (H1 _ _ _ F E1)|exact E2].
Qed.
Lemma tame_ret {A} (x : A) : returns (fun bs : bytes => ok (x, bs)) /\ hands_on (fun bs : bytes => ok (x, bs)).
Proof. split; [intros bs; eexists; reflexivity|]. intros bs y rest F H. injection H as <- <-. exact F. Qed.
Lemma tame_err {A} : returns (fun _ : bytes => @err (A * bytes)) /\ hands_on (fun _ : bytes => @err (A * bytes)).
Proof. split; [intros bs; eexists; reflexivity|]. intros bs y rest F H. discriminate H. Qed.
Definition tame' {A} (t : reader A) : Prop := returns t /\ hands_on t.
Lemma tb {A B} (t1 : reader A) (t2 : A -> reader B) : tame' t1 -> (forall a, tame' (t2 a)) -> tame' (fun bs => let? p := t1 bs in t2 (fst p) (snd p)).
Proof. intros [R H] X. apply tame_bind; try assumption; intros a; apply X. Qed.
Lemma tame_varint k top : tame' (take_varint k top).
Proof. split; [apply take_varint_returns|apply varint_hands_on]. Qed.
Lemma tame_byte : tame' take_byte.
Proof.
  split; [intros [|b bs]; eexists; reflexivity|]. intros bs x rest F H. apply take_byte_iff in H. subst. inversion F; assumption.
Qed.
Lemma tame_int t : tame' (btake (bleaf_int t)).
Proof.
  destruct t; try apply tame_varint; try apply tame_byte;
  cbn [bleaf_int btake signed].
  all: try (apply (tb (take_varint _ _) (fun n bs => ok (unzigzag n, bs))); [apply tame_varint|intros; apply tame_ret]).
  apply (tb take_byte (fun b bs => ok (if b <? 128 then b else b - 256, bs))); [apply tame_byte|intros; apply tame_ret].
Qed.
Lemma tame_le k : tame' (take_le k).
Proof.
  split.
  - intros bs. unfold take_le, take_bytes. destruct (_ <=? _); eexists; reflexivity.
  - intros bs x rest F H. apply take_le_iff in H. destruct H as (l & -> & _). apply Forall_app in F. tauto.
Qed.
Lemma tame_bool : tame' take_bool.
Proof.
  split.
  - intros [|b bs]; cbn [take_bool]; [|destruct (b =? 0); [|destruct (b =? 1)]]; eexists; reflexivity.
  - intros [|b bs] x rest F H; [discriminate|]. inversion F; subst. cbn [take_bool] in H.
    destruct (b =? 0); [|destruct (b =? 1); [|discriminate]]; injection H as <- <-; assumption.
Qed.
Lemma tame_str utf8 : tame' (take_str utf8).
Proof.
  split; [apply take_str_returns|]. intros bs x rest F H. apply (take_str_iff utf8 _ _ _ F) in H. destruct H as (l & -> & _).
  apply Forall_app in F. destruct F as [_ F]. apply Forall_app in F. tauto.
Qed.
Lemma C72_returns_proof :
  (forall t, tame (bleaf_int t)) /\ tame bleaf_f32 /\ tame bleaf_f64 /\ tame bleaf_bool /\ (forall utf8, tame (bleaf_str utf8)) /\
  (forall I, tame I -> tame (bleaf_ratio I)) /\
  (forall A M (LA : bleaf A) (LM : bleaf M), tame LA -> tame LM -> tame (bleaf_quad LA LM) /\ tame (bleaf_percent LA LM)) /\
  (forall F (LF : bleaf (fcar F)), tame LF -> tame (bleaf_mult LF)) /\
  (forall G (LG : bleaf (gcar G)), tame LG -> tame (bleaf_flags LG)) /\
  (forall A (LA : bleaf A), tame LA -> tame (bleaf_once LA) /\ tame (bleaf_prio LA)) /\
  tame bleaf_none /\
  (forall S (La : bleaf (addT S)) Lm Lb Lr Lz, tame La -> tame Lm -> tame Lb -> tame Lr -> tame Lz -> tame (bleaf_op La Lm Lb Lr Lz)).
Proof.
  assert (R : forall A (x : A), tame' (fun bs : bytes => ok (x, bs))) by (intros; apply tame_ret).
  assert (E : forall A, tame' (fun _ : bytes => @err (A * bytes))) by (intros; apply tame_err).
  split; [exact tame_int|].
  split; [exact (tb (take_le 4) (fun n bs => ok (f32_of_bits n, bs)) (tame_le 4) (fun n => R _ _))|].
  split; [exact (tb (take_le 8) (fun n bs => ok (f64_of_bits n, bs)) (tame_le 8) (fun n => R _ _))|].
  split; [exact tame_bool|]. split; [exact tame_str|].
  split. { intros I H. refine (tb (btake I) (fun n bs => let? d := btake I bs in if fst d =? 0 then err else ok (Frac n (fst d), snd d)) H _). intros n.
    refine (tb (btake I) (fun d bs => if d =? 0 then err else ok (Frac n d, bs)) H _). intros d. destruct (d =? 0); [apply E|apply R]. }
  split. { intros A M LA LM HA HM. split.
    - refine (tb (btake LA) (fun a bs => let? lo := btake LA bs in let? hi := btake LA (snd lo) in let? m := btake LM (snd hi) in ok (Quad a (fst lo) (fst hi) (fst m), snd m)) HA _). intros a.
      refine (tb (btake LA) (fun lo bs => let? hi := btake LA bs in let? m := btake LM (snd hi) in ok (Quad a lo (fst hi) (fst m), snd m)) HA _). intros lo.
      refine (tb (btake LA) (fun hi bs => let? m := btake LM bs in ok (Quad a lo hi (fst m), snd m)) HA _). intros hi.
      refine (tb (btake LM) (fun m bs => ok (Quad a lo hi m, bs)) HM _). intros m. apply R.
    - refine (tb (btake LA) (fun a bs => let? m := btake LM bs in let? lo := btake LA (snd m) in let? hi := btake LA (snd lo) in ok (Quad a (fst lo) (fst hi) (fst m), snd hi)) HA _). intros a.
      refine (tb (btake LM) (fun m bs => let? lo := btake LA bs in let? hi := btake LA (snd lo) in ok (Quad a (fst lo) (fst hi) m, snd hi)) HM _). intros m.
      refine (tb (btake LA) (fun lo bs => let? hi := btake LA bs in ok (Quad a lo (fst hi) m, snd hi)) HA _). intros lo.
      refine (tb (btake LA) (fun hi bs => ok (Quad a lo hi m, bs)) HA _). intros hi. apply R. }
  split. { intros F LF H.
    refine (tb (btake LF) (fun lo bs => let? hi := btake LF bs in let? m := btake LF (snd hi) in ok (Tri lo (fst hi) (fst m), snd m)) H _). intros lo.
    refine (tb (btake LF) (fun hi bs => let? m := btake LF bs in ok (Tri lo hi (fst m), snd m)) H _). intros hi.
    refine (tb (btake LF) (fun m bs => ok (Tri lo hi m, bs)) H _). intros m. apply R. }
  split. { intros G LG H.
    refine (tb (btake LG) (fun n bs => let? o := btake LG bs in ok (FlagsV n (fst o), snd o)) H _). intros n.
    refine (tb (btake LG) (fun o bs => ok (FlagsV n o, bs)) H _). intros o. apply R. }
  split. { intros A LA H. split.
    - refine (tb take_u32 (once_take LA) (tame_varint 5 15) _). intros i. unfold once_take.
      destruct i as [|[p|[p|p|]|]|p]; try apply E; try apply R. refine (tb (btake LA) (fun a bs => ok (Found a, bs)) H _). intros a. apply R.
    - refine (tb (btake LA) (fun v bs => let? p := btake (bleaf_int I32) bs in ok (Prio v (fst p), snd p)) H _). intros v.
      refine (tb (btake (bleaf_int I32)) (fun p bs => ok (Prio v p, bs)) (tame_int I32) _). intros p. apply R. }
  split. { refine (tb take_u32 (fun _ _ => err) (tame_varint 5 15) _). intros. apply E. }
  intros S La Lm Lb Lr Lz Ha Hm Hb Hr Hz. refine (tb take_u32 (op_take La Lm Lb Lr Lz) (tame_varint 5 15) _). intros i. unfold op_take.
  destruct i as [|[[[p|p|]|[p|p|]|]|[[p|p|]|[p|p|]|]|]|p]; try apply E.
  - exact (tb (btake La) (fun a bs => ok (OAdd a, bs)) Ha (fun a => R _ _)).
  - exact (tb (btake Lr) (fun a bs => ok (OMax a, bs)) Hr (fun a => R _ _)).
  - exact (tb (btake Lb) (fun a bs => ok (ONot a, bs)) Hb (fun a => R _ _)).
  - exact (tb (btake Lz) (fun a bs => ok (OBase a, bs)) Hz (fun a => R _ _)).
  - exact (tb (btake Lr) (fun a bs => ok (OMin a, bs)) Hr (fun a => R _ _)).
  - exact (tb (btake Lb) (fun a bs => ok (OOr a, bs)) Hb (fun a => R _ _)).
  - exact (tb (btake Lm) (fun a bs => ok (OMul a, bs)) Hm (fun a => R _ _)).
Qed.
