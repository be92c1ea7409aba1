From Coq Require Import String Ascii ZArith List Bool Lia SpecFloat.
From Flocq Require Import Core BinarySingleNaN.
From Flocq Require Binary Bits.
From Verif Require Import M_Outcome M_Ints M_Ratio M_Float M_Value M_Types M_Qualifier M_Search M_Stat M_StatMap M_HashMap M_Pair M_Defaults M_Querier M_Poison M_Registry M_Serde M_Bytes M_ValueSerde M_ValueBytes
  S_StatMap S_Demo S_Serde S_Bytes S_Totals S_ValueSerde S_ValueBytes L_Outcome L_Serde L_Bytes L_Bytes3.
Import ListNotations.
Local Open Scope Z_scope.

(** ** Composing *)
Lemma two {A B C} (ta : reader A) (tb : reader B) (f : A -> B -> C) ba bb x y :
  spells ta ba x -> spells tb bb y ->
  spells (fun bs => let? a := ta bs in let? b := tb (snd a) in ok (f (fst a) (fst b), snd b)) (ba ++ bb) (f x y).
Proof.
  intros H1 H2. refine (spells_bind ta (fun a bs => let? b := tb bs in ok (f a (fst b), snd b)) _ _ _ _ H1 _).
  exact (spells_map tb (f x) _ _ H2).
Qed.
Lemma three {A B C D} (ta : reader A) (tb : reader B) (tc : reader C) (f : A -> B -> C -> D) ba bb bc x y z :
  spells ta ba x -> spells tb bb y -> spells tc bc z ->
  spells (fun bs => let? a := ta bs in let? b := tb (snd a) in let? c := tc (snd b) in ok (f (fst a) (fst b) (fst c), snd c)) (ba ++ bb ++ bc) (f x y z).
Proof.
  intros H1 H2 H3. refine (spells_bind ta (fun a bs => let? b := tb bs in let? c := tc (snd b) in ok (f a (fst b) (fst c), snd c)) _ _ _ _ H1 _).
  exact (two tb tc (f x) _ _ _ _ H2 H3).
Qed.
Lemma four {A B C D E} (ta : reader A) (tb : reader B) (tc : reader C) (td : reader D) (f : A -> B -> C -> D -> E) ba bb bc bd x y z w :
  spells ta ba x -> spells tb bb y -> spells tc bc z -> spells td bd w ->
  spells (fun bs => let? a := ta bs in let? b := tb (snd a) in let? c := tc (snd b) in let? d := td (snd c) in ok (f (fst a) (fst b) (fst c) (fst d), snd d)) (ba ++ bb ++ bc ++ bd) (f x y z w).
Proof.
  intros H1 H2 H3 H4. refine (spells_bind ta (fun a bs => let? b := tb bs in let? c := tc (snd b) in let? d := td (snd c) in ok (f a (fst b) (fst c) (fst d), snd d)) _ _ _ _ H1 _).
  exact (three tb tc td (f x) _ _ _ _ _ _ H2 H3 H4).
Qed.

(** ** Integers *)
Lemma len_spec t : bits t <> 8 -> groups t = int_len t /\ last_group t = int_top t.
Proof. intros H. destruct t; try (exfalso; apply H; reflexivity); split; reflexivity. Qed.
Lemma room t : bits t <> 8 -> (0 < int_len t)%nat /\ 0 <= int_top t < 128 /\ 128 ^ Z.of_nat (int_len t - 1) * (int_top t + 1) = 2 ^ bits t.
Proof. intros H. destruct t; try (exfalso; apply H; reflexivity); (split; [cbn; lia|]); (split; [cbn; lia|]); vm_compute; reflexivity. Qed.
Lemma small_iff t n : small t n <-> imin t <= n <= imax t.
Proof. unfold small, in_range. rewrite andb_true_iff, !Z.leb_le. tauto. Qed.
Lemma zig n : unzigzag (zigzag n) = n.
Proof.
  unfold zigzag, unzigzag. destruct (Z.ltb_spec n 0).
  - assert (Z.even (- 2 * n - 1) = false) as ->. { replace (- 2 * n - 1) with (1 + 2 * (- n - 1)) by lia. rewrite Z.even_add_mul_2. reflexivity. }
    replace (- 2 * n - 1 + 1) with ((- n) * 2) by lia. rewrite Z.div_mul by lia. lia.
  - assert (Z.even (2 * n) = true) as -> by (rewrite Z.even_mul; reflexivity). rewrite Z.mul_comm, Z.div_mul by lia. reflexivity.
Qed.
Lemma unzig m n : 0 <= m -> (unzigzag m = n <-> (0 <= n /\ m = 2 * n) \/ (n < 0 /\ m = - 2 * n - 1)).
Proof.
  intros M. split.
  - unfold unzigzag. intros <-. destruct (Z.even m) eqn:E.
    + apply Z.even_spec in E. destruct E as [k ->]. rewrite Z.mul_comm, Z.div_mul by lia. left. lia.
    + assert (O : Z.odd m = true) by (rewrite <- Z.negb_even, E; reflexivity). apply Z.odd_spec in O. destruct O as [k ->].
      replace (2 * k + 1 + 1) with ((k + 1) * 2) by lia. rewrite Z.div_mul by lia. right. lia.
  - intros [[H ->]|[H ->]].
    + rewrite <- (zig n) at 2. unfold zigzag. rewrite (proj2 (Z.ltb_ge n 0)) by lia. reflexivity.
    + rewrite <- (zig n) at 2. unfold zigzag. rewrite (proj2 (Z.ltb_lt n 0)) by lia. reflexivity.
Qed.
Lemma zig_range t n : signed t = true -> small t n -> 0 <= zigzag n < 2 ^ bits t.
Proof.
  intros S H. apply small_iff in H. unfold imin, imax in H. rewrite S in H. unfold zigzag.
  assert (2 ^ bits t = 2 * 2 ^ (bits t - 1)).
  { rewrite <- Z.pow_succ_r by (destruct t; cbn; lia). f_equal. lia. }
  destruct (Z.ltb_spec n 0); lia.
Qed.
Lemma unzig_range t m : signed t = true -> 0 <= m < 2 ^ bits t -> small t (unzigzag m).
Proof.
  intros S H. apply small_iff. unfold imin, imax. rewrite S.
  assert (2 ^ bits t = 2 * 2 ^ (bits t - 1)).
  { rewrite <- Z.pow_succ_r by (destruct t; cbn; lia). f_equal. lia. }
  destruct (proj1 (unzig m (unzigzag m) (proj1 H)) eq_refl) as [[A B]|[A B]]; lia.
Qed.
Lemma unsigned_range t n : signed t = false -> (small t n <-> 0 <= n < 2 ^ bits t).
Proof. intros S. rewrite small_iff. unfold imin, imax. rewrite S. lia. Qed.

(** The general form of a wide integer. *)
Lemma bleaf_wide t : bits t <> 8 -> bleaf_int t =
  if signed t then BLeaf (fun n => put_varint (int_len t) (zigzag n)) (fun bs => let? p := take_varint (int_len t) (int_top t) bs in ok (unzigzag (fst p), snd p))
  else BLeaf (put_varint (int_len t)) (take_varint (int_len t) (int_top t)).
Proof. intros H. destruct t; try (exfalso; apply H; reflexivity); reflexivity. Qed.
Lemma byte_spells b : spells take_byte [b] b.
Proof. split; [reflexivity|]. intros p s H N. destruct p as [|z p]; [reflexivity|]. injection H as _ H. symmetry in H. apply app_eq_nil in H. tauto. Qed.
Lemma bback_int t n : small t n -> bback (bleaf_int t) n.
Proof.
  intros H. unfold bback. destruct (Z.eq_dec (bits t) 8) as [E|E].
  - destruct t; try discriminate E.
    + apply byte_spells.
    + assert (R : -128 <= n <= 127) by (apply small_iff in H; exact H). cbn [bleaf_int bput btake].
      set (f := fun b => if b <? 128 then b else b - 256).
      assert (F : f (n mod 256) = n).
      { unfold f. destruct (Z_lt_dec n 0).
        - replace (n mod 256) with (n + 256); [|apply Z.mod_unique_pos with (-1); lia]. rewrite (proj2 (Z.ltb_ge _ _)); lia.
        - rewrite Z.mod_small by lia. rewrite (proj2 (Z.ltb_lt _ _)); lia. }
      rewrite <- F at 2. exact (spells_map take_byte f _ _ (byte_spells (n mod 256))).
  - rewrite (bleaf_wide t E). destruct (room t E) as (R1 & R2 & R3). destruct (signed t) eqn:Sg; cbn [bput btake].
    + pose proof (zig_range t n Sg H) as Z1. rewrite <- (zig n) at 2.
      exact (spells_map (take_varint (int_len t) (int_top t)) unzigzag _ _ (put_varint_spells _ _ _ R1 (proj1 Z1) R2 ltac:(rewrite R3; apply Z1))).
    + apply (unsigned_range t n Sg) in H. apply put_varint_spells; try assumption; [apply H|rewrite R3; apply H].
Qed.
Lemma take_byte_iff bs n rest : take_byte bs = ok (n, rest) <-> bs = [n] ++ rest.
Proof. unfold take_byte. destruct bs as [|b bs]; [split; discriminate|]. split; [intros H; injection H as -> ->; reflexivity|intros H; injection H as -> ->; reflexivity]. Qed.
Lemma int_iff t bs n rest : Forall is_byte bs -> (btake (bleaf_int t) bs = ok (n, rest) <-> exists l, bs = l ++ rest /\ int_bytes t l n).
Proof.
  intros F. unfold int_bytes. destruct (Z.eq_dec (bits t) 8) as [E|E].
  - rewrite E, Z.eqb_refl. destruct t; try discriminate E; cbn [bleaf_int btake].
    + rewrite take_byte_iff. split.
      * intros ->. exists [n]. split; [reflexivity|]. exists n. inversion F; subst. unfold is_byte in *. split; [reflexivity|].
        split; [apply small_iff; cbn; lia|apply Z.mod_small; lia].
      * intros (l & -> & b & -> & H & M). apply small_iff in H. cbn in H. rewrite Z.mod_small in M by lia. subst. reflexivity.
    + rewrite rbind_ok. split.
      * intros ([b r] & H1 & H2). apply take_byte_iff in H1. cbn [fst snd] in H2. subst bs. inversion F as [|? ? Fb]; subst. unfold is_byte in Fb.
        destruct (Z.ltb_spec b 128); injection H2 as <- <-; exists [b]; (split; [reflexivity|]); exists b; (split; [reflexivity|]);
          (split; [apply small_iff; cbn; lia|]).
        -- apply Z.mod_small; lia.
        -- symmetry. apply Z.mod_unique_pos with (-1); lia.
      * intros (l & -> & b & -> & H & M). exists (b, rest). split; [reflexivity|]. apply small_iff in H. cbn in H. cbn [fst snd].
        destruct (Z_lt_dec n 0) as [N|N].
        -- assert (n mod 256 = n + 256) as M' by (symmetry; apply Z.mod_unique_pos with (-1); lia). rewrite (proj2 (Z.ltb_ge b 128)) by lia.
           do 3 f_equal. lia.
        -- rewrite Z.mod_small in M by lia. rewrite (proj2 (Z.ltb_lt b 128)) by lia. subst. reflexivity.
  - destruct (Z.eqb_spec (bits t) 8); [contradiction|]. destruct (len_spec t E) as [-> ->]. rewrite (bleaf_wide t E).
    destruct (room t E) as (R1 & R2 & R3). destruct (signed t) eqn:Sg; cbn [btake].
    + rewrite rbind_ok. split.
      * intros ([m r] & H1 & H2). apply (take_varint_iff _ _ _ _ _ F) in H1. destruct H1 as (l & -> & V). cbn [fst snd] in H2. injection H2 as <- <-.
        exists l. split; [reflexivity|]. exists m. split; [exact V|]. apply unzig; [|reflexivity].
        apply Forall_app in F. apply (digits_range _ _ R2) in V; [lia|tauto].
      * intros (l & -> & m & V & H). exists (m, rest). split; [apply (take_varint_iff _ _ _ _ _ F); eauto|]. cbn [fst snd].
        rewrite (proj2 (unzig m n ltac:(lia)) H). reflexivity.
    + rewrite (take_varint_iff _ _ _ _ _ F). split.
      * intros (l & -> & V). exists l. split; [reflexivity|]. exists n. auto.
      * intros (l & -> & m & V & ->). exists l. auto.
Qed.
Lemma int_range t l n : Forall is_byte l -> int_bytes t l n -> small t n.
Proof.
  intros F. unfold int_bytes. destruct (Z.eqb_spec (bits t) 8) as [E|E].
  - intros (b & _ & H & _). exact H.
  - destruct (len_spec t E) as [-> ->]. destruct (room t E) as (R1 & R2 & R3). intros (m & V & H).
    apply (digits_range _ _ R2) in V; [|exact F]. rewrite R3 in V. destruct (signed t) eqn:Sg.
    + apply (unzig m n ltac:(lia)) in H. subst n. apply unzig_range; [exact Sg|lia].
    + subst. apply unsigned_range; [exact Sg|lia].
Qed.

(** ** Floats *)
Lemma put_le_length k : forall n, List.length (put_le k n) = k.
Proof. induction k as [|k IH]; intros n; cbn; [reflexivity|]. rewrite IH. reflexivity. Qed.
Lemma of_le_put k : forall n, 0 <= n < 256 ^ Z.of_nat k -> of_le (put_le k n) = n.
Proof.
  induction k as [|k IH]; intros n H.
  - cbn in *. lia.
  - rewrite Nat2Z.inj_succ, Z.pow_succ_r in H by lia. cbn [put_le of_le].
    rewrite IH; [pose proof (Z.div_mod n 256 ltac:(lia)); lia|]. split; [apply Z.div_pos; lia|apply Z.div_lt_upper_bound; lia].
Qed.
Lemma of_le_little l : of_le l = little l.
Proof. induction l as [|b l IH]; [reflexivity|]. cbn. rewrite IH. reflexivity. Qed.
Lemma put_le_spells k n : 0 <= n < 256 ^ Z.of_nat k -> spells (take_le k) (put_le k n) n.
Proof.
  intros H. rewrite <- (of_le_put k n H) at 2. unfold take_le.
  refine (spells_map (take_bytes (Z.of_nat k)) of_le _ _ _).
  rewrite <- (put_le_length k n) at 1. apply take_bytes_spells.
Qed.
Lemma take_le_iff k bs n rest : take_le k bs = ok (n, rest) <-> exists l, bs = l ++ rest /\ List.length l = k /\ n = little l.
Proof.
  unfold take_le. rewrite rbind_ok. unfold take_bytes. rewrite Nat2Z.id. split.
  - intros ([q r] & H1 & H2). destruct (Z.leb_spec (Z.of_nat k) (Z.of_nat (List.length bs))) as [L|L]; [|discriminate].
    injection H1 as <- <-. cbn [fst snd] in H2. injection H2 as <- <-. exists (firstn k bs). rewrite firstn_skipn. split; [reflexivity|].
    split; [apply firstn_length_le; lia|apply of_le_little].
  - intros (l & -> & <- & ->). exists (l, rest). rewrite (proj2 (Z.leb_le _ _)) by (rewrite app_length; lia).
    rewrite firstn_app, skipn_app, Nat.sub_diag, firstn_all, skipn_all. cbn [firstn skipn fst snd app]. rewrite app_nil_r, of_le_little. split; reflexivity.
Qed.
Lemma f32_back x : f32_of_bits (f32_bits x) = x.
Proof.
  unfold f32_of_bits, f32_bits, Bits.b32_of_bits, Bits.bits_of_b32.
  rewrite Bits.binary_float_of_bits_of_binary_float. apply Binary.B2BSN_BSN2B.
Qed.
Lemma f64_back x : f64_of_bits (f64_bits x) = x.
Proof.
  unfold f64_of_bits, f64_bits, Bits.b64_of_bits, Bits.bits_of_b64.
  rewrite Bits.binary_float_of_bits_of_binary_float. apply Binary.B2BSN_BSN2B.
Qed.
Lemma f32_bits_range x : 0 <= f32_bits x < 256 ^ Z.of_nat 4.
Proof. exact (Bits.bits_of_binary_float_range 23 8 eq_refl eq_refl _). Qed.
Lemma f64_bits_range x : 0 <= f64_bits x < 256 ^ Z.of_nat 8.
Proof. exact (Bits.bits_of_binary_float_range 52 11 eq_refl eq_refl _). Qed.
Lemma bback_f32 x : bback bleaf_f32 x.
Proof.
  unfold bback. cbn [bleaf_f32 bput btake]. rewrite <- (f32_back x) at 2.
  exact (spells_map (take_le 4) f32_of_bits _ _ (put_le_spells 4 _ (f32_bits_range x))).
Qed.
Lemma bback_f64 x : bback bleaf_f64 x.
Proof.
  unfold bback. cbn [bleaf_f64 bput btake]. rewrite <- (f64_back x) at 2.
  exact (spells_map (take_le 8) f64_of_bits _ _ (put_le_spells 8 _ (f64_bits_range x))).
Qed.
Lemma zeqb_bool a b : Zeq_bool a b = (a =? b).
Proof. destruct (Z.eqb_spec a b) as [->|H]; [apply Zeq_is_eq_bool; reflexivity|]. destruct (Zeq_bool a b) eqn:E; [|reflexivity]. apply Zeq_bool_eq in E. contradiction. Qed.
Lemma ieee_spec mw ew H1 H2 H3 n : B2SF (Binary.B2BSN _ _ (Bits.binary_float_of_bits mw ew H1 H2 H3 n)) = ieee mw ew n.
Proof.
  rewrite Binary.B2SF_B2BSN. unfold Bits.binary_float_of_bits. rewrite Binary.B2SF_FF2B.
  unfold Bits.binary_float_of_bits_aux, Bits.split_bits, ieee. rewrite !zeqb_bool.
  assert (E : SpecFloat.emin (mw + 1) (2 ^ (ew - 1)) = 2 - 2 ^ (ew - 1) - mw) by (unfold SpecFloat.emin; lia).
  assert (P : 2 ^ mw * 2 ^ ew = 2 ^ (mw + ew)) by (rewrite Z.pow_add_r; [reflexivity|lia|lia]).
  assert (Q : 0 <= n mod 2 ^ mw) by (apply Z.mod_pos_bound; apply Z.pow_pos_nonneg; lia).
  assert (R : 0 < 2 ^ mw) by (apply Z.pow_pos_nonneg; lia).
  rewrite ?P. rewrite E.
  destruct (_ =? 0); [destruct (n mod 2 ^ mw); [reflexivity|reflexivity|lia]|].
  destruct (_ =? _); [destruct (n mod 2 ^ mw); [reflexivity|reflexivity|lia]|].
  destruct (n mod 2 ^ mw + 2 ^ mw) eqn:X; [lia|reflexivity|lia].
Qed.
