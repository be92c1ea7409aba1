From Coq Require Import String Ascii ZArith List Bool Lia.
From Verif Require Import M_Outcome M_Ints M_Value M_Types M_Qualifier M_Search M_Stat M_StatMap M_HashMap M_Registry M_Serde M_Bytes
  S_StatMap S_Demo S_Serde S_Bytes L_Outcome L_StatMap L_StatMap2 L_StatMap3 L_Serde.
Import ListNotations.
Local Open Scope Z_scope.

(** *** Spelling *)
Lemma spells_ret {A} (x : A) : spells (fun bs => ok (x, bs)) [] x.
Proof. split; [reflexivity|]. intros p s H N. symmetry in H. apply app_eq_nil in H. tauto. Qed.
Lemma spells_bind {A B} (t1 : reader A) (t2 : A -> reader B) b1 b2 x y :
  spells t1 b1 x -> spells (t2 x) b2 y ->
  spells (fun bs => let? p := t1 bs in t2 (fst p) (snd p)) (b1 ++ b2) y.
Proof.
  intros [H1 E1] [H2 E2]. split.
  - intros rest. rewrite <- app_assoc, H1. cbn [rbind ok obind fst snd]. apply H2.
  - intros p s H N. destruct (app_eq_app _ _ _ _ H) as (l & [[-> ->]|[-> ->]]).
    + destruct l as [|z l].
      * rewrite app_nil_r in *. cbn [app] in *. specialize (H1 []). rewrite app_nil_r in H1. rewrite H1. cbn [rbind ok obind fst snd].
        apply (E2 [] b2); [reflexivity|exact N].
      * rewrite (E1 p (z :: l)); [reflexivity|reflexivity|discriminate].
    + rewrite H1. cbn [rbind ok obind fst snd]. apply (E2 l s); [reflexivity|exact N].
Qed.
Lemma spells_ext {A} (t t' : reader A) bs x : (forall l, t l = t' l) -> spells t bs x -> spells t' bs x.
Proof. intros E [H1 H2]. split; intros; rewrite <- E; eauto. Qed.
Lemma spells_map {A B} (t : reader A) (f : A -> B) bs x :
  spells t bs x -> spells (fun l => let? p := t l in ok (f (fst p), snd p)) bs (f x).
Proof.
  intros H. rewrite <- (app_nil_r bs). apply (spells_bind t (fun a l => ok (f a, l)) bs [] x); [exact H|apply spells_ret].
Qed.

(** *** Varints *)
Lemma put_varint_spells k top : forall n, (0 < k)%nat -> 0 <= n -> 0 <= top < 128 -> n < 128 ^ Z.of_nat (k - 1) * (top + 1) ->
  spells (take_varint k top) (put_varint k n) n.
Proof.
  induction k as [|k IH]; intros n K N0 T B; [lia|]. cbn [put_varint].
  destruct (n <? 128) eqn:E.
  - apply Z.ltb_lt in E. split.
    + intros rest. cbn [app take_varint]. rewrite (proj2 (Z.ltb_lt n 128) E).
      destruct k as [|k]; [|reflexivity]. change (Z.of_nat (1 - 1)) with 0 in B. rewrite Z.pow_0_r, Z.mul_1_l in B. rewrite (proj2 (Z.ltb_ge top n)); [reflexivity|lia].
    + intros p s H Ns. destruct p as [|z p]; [reflexivity|]. injection H as _ H. symmetry in H. apply app_eq_nil in H. tauto.
  - apply Z.ltb_ge in E. destruct k as [|k]; [change (Z.of_nat (1 - 1)) with 0 in B; rewrite Z.pow_0_r, Z.mul_1_l in B; lia|].
    assert (B' : n / 128 < 128 ^ Z.of_nat (S k - 1) * (top + 1)).
    { apply Z.div_lt_upper_bound; [lia|]. replace (Z.of_nat (S (S k) - 1)) with (Z.succ (Z.of_nat (S k - 1))) in B by lia.
      rewrite Z.pow_succ_r in B by lia. lia. }
    specialize (IH (n / 128) ltac:(lia) ltac:(apply Z.div_pos; lia) T B').
    pose proof (Z.mod_pos_bound n 128 ltac:(lia)) as M.
    assert (G : (n mod 128 + 128 <? 128) = false) by (apply Z.ltb_ge; lia).
    assert (R : (n mod 128 + 128) mod 128 + 128 * (n / 128) = n).
    { replace ((n mod 128 + 128) mod 128) with (n mod 128); [pose proof (Z.div_mod n 128 ltac:(lia)); lia|].
      replace (n mod 128 + 128) with (n mod 128 + 1 * 128) by lia. rewrite Z.mod_add by lia. symmetry. apply Z.mod_mod. lia. }
    destruct IH as [I1 I2]. split.
    + intros rest. change ((n mod 128 + 128 :: put_varint (S k) (n / 128)) ++ rest) with ((n mod 128 + 128) :: (put_varint (S k) (n / 128) ++ rest)).
      change (take_varint (S (S k)) top ((n mod 128 + 128) :: (put_varint (S k) (n / 128) ++ rest)))
        with (if n mod 128 + 128 <? 128 then ok (n mod 128 + 128, put_varint (S k) (n / 128) ++ rest)
              else let? p := take_varint (S k) top (put_varint (S k) (n / 128) ++ rest) in ok ((n mod 128 + 128) mod 128 + 128 * fst p, snd p)).
      rewrite G, I1. cbn [rbind ok obind fst snd]. rewrite R. reflexivity.
    + intros p s H Ns. destruct p as [|z p]; [reflexivity|]. injection H as <- H.
      change (take_varint (S (S k)) top ((n mod 128 + 128) :: p))
        with (if n mod 128 + 128 <? 128 then ok (n mod 128 + 128, p)
              else let? p0 := take_varint (S k) top p in ok ((n mod 128 + 128) mod 128 + 128 * fst p0, snd p0)).
      rewrite G, (I2 p s H Ns). reflexivity.
Qed.
Lemma put_u64_spells n : 0 <= n < 2 ^ 64 -> spells take_u64 (put_u64 n) n.
Proof. intros H. apply put_varint_spells; try lia. exact (proj2 H). Qed.
Lemma put_u32_spells n : 0 <= n < 2 ^ 32 -> spells take_u32 (put_u32 n) n.
Proof. intros H. apply put_varint_spells; try lia. exact (proj2 H). Qed.
Lemma put_i32_spells n : is_i32 n -> spells take_i32 (put_i32 n) n.
Proof.
  intros H. unfold is_i32 in H.
  set (z := if n <? 0 then - 2 * n - 1 else 2 * n).
  assert (Z0 : 0 <= z < 2 ^ 32) by (unfold z; destruct (Z.ltb_spec n 0); lia).
  pose proof (spells_map take_u32 (fun u => if Z.even u then u / 2 else - ((u + 1) / 2)) _ _ (put_u32_spells z Z0)) as S1.
  cbn beta in S1. replace (if Z.even z then z / 2 else - ((z + 1) / 2)) with n in S1; [exact S1|].
  unfold z. destruct (Z.ltb_spec n 0) as [L|L].
  - replace (- 2 * n - 1) with (1 + 2 * (- n - 1)) by lia. rewrite Z.even_add_mul_2.
    cbn [Z.even]. replace (1 + 2 * (- n - 1) + 1) with (- n * 2) by lia. rewrite Z.div_mul by lia. lia.
  - rewrite Z.even_mul. cbn [Z.even orb]. rewrite Z.mul_comm, Z.div_mul by lia. reflexivity.
Qed.
Lemma put_bool_spells b : spells take_bool (put_bool b) b.
Proof.
  split; [destruct b; reflexivity|]. intros p s H N. destruct p as [|z p]; [reflexivity|].
  injection H as _ H. symmetry in H. apply app_eq_nil in H. tauto.
Qed.

Lemma take_varint_iff k top : forall bs n rest, Forall is_byte bs ->
  (take_varint k top bs = ok (n, rest) <-> exists l, bs = l ++ rest /\ varint k top l n).
Proof.
  induction k as [|k IH]; intros bs n rest F.
  - split; [discriminate|]. intros (l & _ & l0 & b & -> & _ & _ & L & _). rewrite app_length in L. cbn in L. lia.
  - destruct bs as [|b bs].
    + split; [discriminate|]. intros (l & H & l0 & b & -> & _). symmetry in H. apply app_eq_nil in H. destruct H as [H _].
      apply app_eq_nil in H. destruct H. discriminate.
    + inversion F as [|? ? Fb F']; subst. unfold is_byte in Fb. cbn [take_varint]. destruct (b <? 128) eqn:E.
      * apply Z.ltb_lt in E.
        transitivity (match k with O => b <= top | Datatypes.S _ => True end /\ b = n /\ bs = rest).
        { destruct k; [|split; [intros H; injection H as -> ->; auto|intros (_ & -> & ->); reflexivity]].
          destruct (Z.ltb_spec top b) as [L|L]; split; try discriminate; [lia| |].
          - intros H. injection H as -> ->. auto.
          - intros (_ & -> & ->). reflexivity. }
        (* a byte without the highest bit is the last *)
        assert (D : b mod 128 = b) by (apply Z.mod_small; lia).
        split.
        { intros (T & <- & ->). exists [b]. split; [reflexivity|]. exists [], b. cbn [length app digits].
          split; [reflexivity|]. split; [constructor|]. split; [exact E|]. split; [lia|]. split.
          - intros L. assert (k = 0)%nat by lia. subst k. exact T.
          - rewrite D. lia. }
        intros (l & H & l0 & b' & -> & G & B & L & T & ->). destruct l0 as [|c l0].
        { injection H as <- ->. cbn [app digits]. rewrite D. split; [|split; [lia|reflexivity]].
          destruct k; [apply T; reflexivity|exact I]. }
        injection H as -> _. inversion G; subst. lia.
      * apply Z.ltb_ge in E. rewrite rbind_ok. split.
        { intros ([x r] & H1 & H2). cbn [fst snd] in H2. injection H2 as <- <-.
          apply (IH _ _ _ F') in H1. destruct H1 as (l & -> & l0 & c & -> & G & B & L & T & ->).
          exists (b :: l0 ++ [c]). split; [reflexivity|]. exists (b :: l0), c. cbn [app digits length].
          split; [reflexivity|]. split; [constructor; assumption|]. split; [exact B|]. split; [lia|]. split; [|reflexivity].
          intros L'. apply T. lia. }
        intros (l & H & l0 & c & -> & G & B & L & T & ->). destruct l0 as [|c0 l0].
        { injection H as <- ->. lia. }
        injection H as <- H. inversion G; subst. exists (digits (l0 ++ [c]), rest). split; [|reflexivity].
        apply (IH _ _ _ F'). exists (l0 ++ [c]). split; [reflexivity|]. exists l0, c.
        split; [reflexivity|]. split; [assumption|]. split; [exact B|]. cbn [app length] in L, T. split; [lia|].
        split; [|reflexivity]. intros L'. apply T. lia.
Qed.
Lemma digits_range k top : 0 <= top < 128 -> forall l n, Forall is_byte l -> varint k top l n ->
  0 <= n < 128 ^ Z.of_nat (k - 1) * (top + 1).
Proof.
  intros T0 l n F (l0 & b & -> & G & B & L & T & ->). revert k L T. induction l0 as [|c l0 IH]; intros k L T.
  - cbn [app digits]. inversion F as [|? ? Fb _]; subst. unfold is_byte in Fb. rewrite Z.mod_small by lia.
    cbn [app length] in L, T. destruct (Nat.eq_dec k 1) as [->|K].
    + specialize (T eq_refl). change (Z.of_nat (1 - 1)) with 0. rewrite Z.pow_0_r. lia.
    + assert (1 <= Z.of_nat (k - 1)) by lia. pose proof (Z.pow_le_mono_r 128 1 (Z.of_nat (k - 1)) ltac:(lia) ltac:(lia)). nia.
  - cbn [app length] in L, T. rewrite app_length in L, T. cbn [length] in L, T. destruct k as [|k]; [lia|].
    inversion F as [|? ? Fc F']; subst. inversion G; subst.
    specialize (IH F' ltac:(assumption) k ltac:(rewrite app_length; cbn; lia)).
    rewrite app_length in IH. cbn [length] in IH. specialize (IH ltac:(intros; apply T; lia)).
    cbn [app digits]. pose proof (Z.mod_pos_bound c 128 ltac:(lia)).
    assert (K : (1 <= k)%nat) by lia. replace (Z.of_nat (Datatypes.S k - 1)) with (Z.succ (Z.of_nat (k - 1))) by lia.
    rewrite Z.pow_succ_r by lia. lia.
Qed.
Lemma take_varint_returns k top : returns (take_varint k top).
Proof.
  induction k as [|k IH]; intros bs; [exists None; reflexivity|]. destruct bs as [|b bs]; [exists None; reflexivity|].
  cbn [take_varint]. destruct (b <? 128); [destruct k; [destruct (top <? b)|]; eexists; reflexivity|].
  destruct (IH bs) as [[p|] E]; rewrite E; eexists; reflexivity.
Qed.

(** *** Strings *)
Lemma ascii_byte c : ascii_of_nat (Z.to_nat (Z.of_nat (nat_of_ascii c))) = c.
Proof. rewrite Nat2Z.id. apply ascii_nat_embedding. Qed.
Lemma text_length s : List.length (text s) = String.length s.
Proof. unfold text. rewrite map_length. induction s as [|c s IH]; cbn; [reflexivity|]. rewrite IH. reflexivity. Qed.
Lemma text_back s : string_of_list_ascii (map (fun b => ascii_of_nat (Z.to_nat b)) (text s)) = s.
Proof.
  unfold text. rewrite map_map. rewrite (map_ext _ (fun c => c)) by apply ascii_byte. rewrite map_id.
  apply string_of_list_ascii_of_string.
Qed.
Lemma text_of l : Forall is_byte l -> text (string_of_list_ascii (map (fun b => ascii_of_nat (Z.to_nat b)) l)) = l.
Proof.
  intros F. unfold text. rewrite list_ascii_of_string_of_list_ascii, map_map. induction F as [|b l B _ IH]; [reflexivity|].
  cbn [map]. rewrite IH. f_equal. unfold is_byte in B. rewrite nat_ascii_embedding by lia. lia.
Qed.
Lemma take_bytes_spells l : spells (take_bytes (Z.of_nat (List.length l))) l l.
Proof.
  split.
  - intros rest. unfold take_bytes. rewrite (proj2 (Z.leb_le _ _)) by (rewrite app_length; lia).
    rewrite Nat2Z.id, firstn_app, skipn_app, Nat.sub_diag, firstn_all, skipn_all. cbn [firstn skipn]. rewrite app_nil_r. reflexivity.
  - intros p s -> N. unfold take_bytes. rewrite (proj2 (Z.leb_gt _ _)); [reflexivity|].
    rewrite app_length. destruct s; [contradiction|]. cbn [List.length]. lia.
Qed.
Lemma put_str_spells utf8 s : utf8 s = true -> Z.of_nat (String.length s) < 2 ^ 64 -> spells (take_str utf8) (put_str s) s.
Proof.
  intros U L. unfold put_str. fold (text s).
  refine (spells_bind take_u64 (fun n bs => let? q := take_bytes n bs in
    let s0 := string_of_list_ascii (map (fun b => ascii_of_nat (Z.to_nat b)) (fst q)) in if utf8 s0 then ok (s0, snd q) else err)
    _ _ _ _ (put_u64_spells _ (conj (Nat2Z.is_nonneg _) L)) _).
  rewrite <- (app_nil_r (text s)), <- text_length.
  refine (spells_bind _ (fun q bs => let s0 := string_of_list_ascii (map (fun b => ascii_of_nat (Z.to_nat b)) q) in if utf8 s0 then ok (s0, bs) else err)
    _ _ _ _ (take_bytes_spells (text s)) _).
  cbv zeta. rewrite text_back, U. apply spells_ret.
Qed.
Lemma forall_app_r {A} (p : A -> Prop) l1 l2 : Forall p (l1 ++ l2) -> Forall p l2.
Proof. intros F. apply Forall_app in F. tauto. Qed.
Lemma take_str_iff utf8 bs s rest : Forall is_byte bs ->
  (take_str utf8 bs = ok (s, rest) <->
   exists l, bs = l ++ text s ++ rest /\ varint 10 1 l (Z.of_nat (String.length s)) /\ utf8 s = true).
Proof.
  intros F. unfold take_str. rewrite rbind_ok. split.
  - intros ([n b1] & H1 & H2). apply (take_varint_iff 10 1 _ _ _ F) in H1. destruct H1 as (l & -> & V).
    cbn [fst snd] in H2. apply rbind_ok in H2. destruct H2 as ([q r] & H2 & H3). cbn [fst snd] in H3. unfold take_bytes in H2.
    destruct (Z.leb_spec n (Z.of_nat (List.length b1))) as [L|L]; [|discriminate]. injection H2 as <- <-. cbv zeta in H3.
    destruct (utf8 _) eqn:U in H3; [|discriminate]. injection H3 as <- <-.
    pose proof F as FA. apply forall_app_r in F.
    assert (F1 : Forall is_byte (firstn (Z.to_nat n) b1)) by (rewrite <- (firstn_skipn (Z.to_nat n) b1) in F; apply Forall_app in F; tauto).
    exists l. rewrite text_of by exact F1. rewrite firstn_skipn. split; [reflexivity|]. split; [|exact U].
    rewrite <- text_length, text_of by exact F1. rewrite firstn_length.
    assert (0 <= n).
    { apply (digits_range 10 1) in V; [lia|lia|]. apply Forall_app in FA. tauto. }
    rewrite Nat.min_l by lia. rewrite Z2Nat.id by lia. exact V.
  - intros (l & -> & V & U). exists (Z.of_nat (String.length s), text s ++ rest).
    split; [apply (take_varint_iff 10 1 _ _ _ F); eauto|]. cbn [fst snd]. rewrite <- text_length.
    rewrite (proj1 (take_bytes_spells (text s)) rest), rbind_ok_l. cbn [fst snd]. cbv zeta. rewrite text_back, U. reflexivity.
Qed.
