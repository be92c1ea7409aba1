From Coq Require Import String Ascii ZArith List Bool Lia.
From Verif Require Import M_Outcome M_Serde M_Bytes M_Utf8 S_Bytes S_Utf8 L_Bytes.
Import ListNotations.
Local Open Scope Z_scope.

Ltac bools := repeat match goal with
  | H : _ && _ = true |- _ => apply andb_true_iff in H; destruct H
  | H : (_ <=? _) = true |- _ => apply Z.leb_le in H
  | H : (_ <? _) = true |- _ => apply Z.ltb_lt in H
  | H : (_ <=? _) = false |- _ => apply Z.leb_gt in H
  | H : (_ <? _) = false |- _ => apply Z.ltb_ge in H
  | H : (_ =? _) = true |- _ => apply Z.eqb_eq in H
  | H : (_ =? _) = false |- _ => apply Z.eqb_neq in H
  end.
Lemma continues_iff b : is_byte b -> (continues b = true <-> 128 <= b <= 191).
Proof. unfold is_byte, continues. intros B. destruct (Z.ltb_spec b 128); rewrite Z.ltb_lt; lia. Qed.
Lemma width_cases b : 
  (char_width b = 1 /\ b < 128) \/ (char_width b = 0 /\ (128 <= b < 194 \/ 245 <= b)) \/ (char_width b = 2 /\ 194 <= b < 224) \/
  (char_width b = 3 /\ 224 <= b < 240) \/ (char_width b = 4 /\ 240 <= b < 245).
Proof. unfold char_width. repeat match goal with |- context [?a <? ?b] => destruct (Z.ltb_spec a b) end; lia. Qed.
Lemma range_iff lo hi b : in_range lo hi b = true <-> lo <= b <= hi.
Proof. unfold in_range. rewrite andb_true_iff, !Z.leb_le. tauto. Qed.
Lemma second_3 f b : second_of_3 f b = true <-> (f = 224 /\ 160 <= b <= 191) \/ (225 <= f <= 236 /\ 128 <= b <= 191) \/ (f = 237 /\ 128 <= b <= 159) \/ (238 <= f <= 239 /\ 128 <= b <= 191).
Proof. unfold second_of_3. rewrite !orb_true_iff, !andb_true_iff, !range_iff, !Z.eqb_eq. tauto. Qed.
Lemma second_4 f b : second_of_4 f b = true <-> (f = 240 /\ 144 <= b <= 191) \/ (241 <= f <= 243 /\ 128 <= b <= 191) \/ (f = 244 /\ 128 <= b <= 143).
Proof. unfold second_of_4. rewrite !orb_true_iff, !andb_true_iff, !range_iff, !Z.eqb_eq. tauto. Qed.

Lemma encode_1 c : 0 <= c < 128 -> encode c = [c].
Proof. intros H. unfold encode. destruct (Z.ltb_spec c 128); [reflexivity|lia]. Qed.
Lemma encode_2 a b : 194 <= a < 224 -> 128 <= b <= 191 -> encode ((a - 192) * 64 + (b - 128)) = [a; b] /\ scalar ((a - 192) * 64 + (b - 128)).
Proof.
  intros A B. set (c := (a - 192) * 64 + (b - 128)). assert (c / 64 = a - 192 /\ c mod 64 = b - 128) as [D M].
  { subst c. split; [symmetry; apply Z.div_unique with (b - 128); lia|symmetry; apply Z.mod_unique with (a - 192); lia]. }
  split; [|unfold scalar; lia]. unfold encode. destruct (Z.ltb_spec c 128); [lia|]. destruct (Z.ltb_spec c 2048); [|lia]. rewrite D, M. do 2 f_equal; lia.
Qed.
Lemma encode_3 a b d : second_of_3 a b = true -> 128 <= d <= 191 -> let c := (a - 224) * 4096 + (b - 128) * 64 + (d - 128) in encode c = [a; b; d] /\ scalar c.
Proof.
  intros A D c. apply second_3 in A.
  assert (c / 4096 = a - 224 /\ c / 64 = (a - 224) * 64 + (b - 128) /\ c mod 64 = d - 128) as (E1 & E2 & E3).
  { subst c. repeat split; [symmetry; apply Z.div_unique with ((b - 128) * 64 + (d - 128)); lia|symmetry; apply Z.div_unique with (d - 128); lia|symmetry; apply Z.mod_unique with ((a - 224) * 64 + (b - 128)); lia]. }
  assert (E4 : ((a - 224) * 64 + (b - 128)) mod 64 = b - 128) by (symmetry; apply Z.mod_unique with (a - 224); lia).
  split; [|unfold scalar; lia]. unfold encode. destruct (Z.ltb_spec c 128); [lia|]. destruct (Z.ltb_spec c 2048); [lia|]. destruct (Z.ltb_spec c 65536); [|lia].
  rewrite E1, E2, E3, E4. repeat (f_equal; try lia).
Qed.
Lemma encode_4 a b d e : second_of_4 a b = true -> 128 <= d <= 191 -> 128 <= e <= 191 ->
  let c := (a - 240) * 262144 + (b - 128) * 4096 + (d - 128) * 64 + (e - 128) in encode c = [a; b; d; e] /\ scalar c.
Proof.
  intros A D E c. apply second_4 in A.
  assert (c / 262144 = a - 240 /\ c / 4096 = (a - 240) * 64 + (b - 128) /\ c / 64 = ((a - 240) * 64 + (b - 128)) * 64 + (d - 128) /\ c mod 64 = e - 128) as (E1 & E2 & E3 & E4).
  { subst c. repeat split; [symmetry; apply Z.div_unique with ((b - 128) * 4096 + (d - 128) * 64 + (e - 128)); lia|symmetry; apply Z.div_unique with ((d - 128) * 64 + (e - 128)); lia|symmetry; apply Z.div_unique with (e - 128); lia|
      symmetry; apply Z.mod_unique with (((a - 240) * 64 + (b - 128)) * 64 + (d - 128)); lia]. }
  assert (E5 : ((a - 240) * 64 + (b - 128)) mod 64 = b - 128) by (symmetry; apply Z.mod_unique with (a - 240); lia).
  assert (E6 : (((a - 240) * 64 + (b - 128)) * 64 + (d - 128)) mod 64 = d - 128) by (symmetry; apply Z.mod_unique with ((a - 240) * 64 + (b - 128)); lia).
  split; [|unfold scalar; lia]. unfold encode. destruct (Z.ltb_spec c 128); [lia|]. destruct (Z.ltb_spec c 2048); [lia|]. destruct (Z.ltb_spec c 65536); [lia|].
  rewrite E1, E2, E3, E4, E5, E6. repeat (f_equal; try lia).
Qed.

Ltac conts := repeat match goal with H : continues _ = true |- _ => apply continues_iff in H; [|assumption] end.
Lemma utf8_sound_len n : forall bs, (List.length bs <= n)%nat -> Forall is_byte bs -> from_utf8 bs = true -> exists cs, Forall scalar cs /\ bs = encode_all cs.
Proof.
  induction n as [|n IH]; intros bs L F H.
  - destruct bs; [exists []; split; [constructor|reflexivity]|cbn in L; lia].
  - destruct bs as [|a r]; [exists []; split; [constructor|reflexivity]|]. cbn [List.length] in L. inversion F as [|? ? Ba Fr]; subst. cbn [from_utf8] in H.
    assert (K : forall c x r', a :: r = x ++ r' -> encode c = x -> scalar c -> (List.length r' <= n)%nat -> Forall is_byte r' -> from_utf8 r' = true -> exists cs, Forall scalar cs /\ a :: r = encode_all cs).
    { intros c x r' E Ec Sc L' F' H'. destruct (IH r' L' F' H') as (cs & Fc & ->). exists (c :: cs). split; [constructor; assumption|]. cbn [encode_all flat_map]. rewrite Ec. exact E. }
    destruct (Z.leb_spec 128 a).
    + destruct (width_cases a) as [[W ?]|[[W ?]|[[W ?]|[[W ?]|[W ?]]]]]; rewrite W in H; cbn [Z.eqb Pos.eqb] in H; try lia; try discriminate.
      * destruct r as [|b1 r']; [discriminate|]. inversion Fr as [|? ? B1 Fr']; subst. bools. conts.
        destruct (encode_2 a b1) as [E1 E2]; [lia|lia|]. eapply (K _ [a; b1] r'); [reflexivity|exact E1|exact E2|cbn in L; lia|assumption|assumption].
      * destruct r as [|b1 [|b2 r']]; [discriminate|discriminate|]. inversion Fr as [|? ? B1 Fr']; subst. inversion Fr' as [|? ? B2 Fr2]; subst. bools. conts.
        destruct (encode_3 a b1 b2) as [E1 E2]; [assumption|lia|]. eapply (K _ [a; b1; b2] r'); [reflexivity|exact E1|exact E2|cbn in L; lia|assumption|assumption].
      * destruct r as [|b1 [|b2 [|b3 r']]]; [discriminate|discriminate|discriminate|]. inversion Fr as [|? ? B1 Fr']; subst. inversion Fr' as [|? ? B2 Fr2]; subst. inversion Fr2 as [|? ? B3 Fr3]; subst. bools. conts.
        destruct (encode_4 a b1 b2 b3) as [E1 E2]; [assumption|lia|lia|]. eapply (K _ [a; b1; b2; b3] r'); [reflexivity|exact E1|exact E2|cbn in L; lia|assumption|assumption].
    + unfold is_byte in Ba. eapply (K a [a] r); [reflexivity|apply encode_1; lia|unfold scalar; lia|lia|assumption|assumption].
Qed.
Lemma encode_bytes c : scalar c -> Forall is_byte (encode c).
Proof.
  unfold scalar, encode, is_byte. intros S.
  destruct (Z.ltb_spec c 128); [repeat constructor; lia|]. destruct (Z.ltb_spec c 2048); [|destruct (Z.ltb_spec c 65536)];
  repeat constructor; Z.div_mod_to_equations; lia.
Qed.
Lemma utf8_step c r : scalar c -> from_utf8 (encode c ++ r) = from_utf8 r.
Proof.
  intros S. unfold encode, scalar in *.
  destruct (Z.ltb_spec c 128) as [H1|H1]; [cbn [app from_utf8]; destruct (Z.leb_spec 128 c); [lia|reflexivity]|].
  assert (CT : forall x, 128 <= x <= 191 -> continues x = true) by (intros x Hx; apply continues_iff; [unfold is_byte; lia|lia]).
  destruct (Z.ltb_spec c 2048) as [H2|H2]; [|destruct (Z.ltb_spec c 65536) as [H3|H3]]; cbn [app from_utf8].
  - assert (2 <= c / 64 < 32 /\ 0 <= c mod 64 < 64) by (Z.div_mod_to_equations; lia).
    destruct (Z.leb_spec 128 (192 + c / 64)); [|lia]. destruct (width_cases (192 + c / 64)) as [[W ?]|[[W ?]|[[W ?]|[[W ?]|[W ?]]]]]; try lia. rewrite W. cbn [Z.eqb Pos.eqb].
    rewrite CT by lia. reflexivity.
  - assert (0 <= c / 4096 < 16 /\ 0 <= c mod 64 < 64 /\ 0 <= c / 64 mod 64 < 64 /\ (c / 4096 = 0 -> 32 <= c / 64 mod 64) /\ (c / 4096 = 13 -> c / 64 mod 64 < 32)) by (Z.div_mod_to_equations; lia).
    destruct (Z.leb_spec 128 (224 + c / 4096)); [|lia]. destruct (width_cases (224 + c / 4096)) as [[W ?]|[[W ?]|[[W ?]|[[W ?]|[W ?]]]]]; try lia. rewrite W. cbn [Z.eqb Pos.eqb].
    rewrite CT by lia. rewrite (proj2 (second_3 _ _)) by lia. reflexivity.
  - assert (0 <= c / 262144 <= 4 /\ 0 <= c mod 64 < 64 /\ 0 <= c / 64 mod 64 < 64 /\ 0 <= c / 4096 mod 64 < 64 /\ (c / 262144 = 0 -> 16 <= c / 4096 mod 64) /\ (c / 262144 = 4 -> c / 4096 mod 64 < 16)) by (Z.div_mod_to_equations; lia).
    destruct (Z.leb_spec 128 (240 + c / 262144)); [|lia]. destruct (width_cases (240 + c / 262144)) as [[W ?]|[[W ?]|[[W ?]|[[W ?]|[W ?]]]]]; try lia. rewrite W. cbn [Z.eqb Pos.eqb].
    rewrite !CT by lia. rewrite (proj2 (second_4 _ _)) by lia. reflexivity.
Qed.
Lemma utf8_complete cs : Forall scalar cs -> from_utf8 (encode_all cs) = true.
Proof. induction 1 as [|c cs S _ IH]; [reflexivity|]. cbn [encode_all flat_map]. rewrite utf8_step; assumption. Qed.
Lemma encode_all_bytes cs : Forall scalar cs -> Forall is_byte (encode_all cs).
Proof. induction 1 as [|c cs S _ IH]; [constructor|]. cbn [encode_all flat_map]. apply Forall_app. split; [apply encode_bytes; assumption|exact IH]. Qed.

Lemma cons_same {A} (x y : A) l m : x :: l = y :: m -> x = y /\ l = m.
Proof. intros E. injection E. auto. Qed.
Lemma encode_first c c' r r' : scalar c -> scalar c' -> encode c ++ r = encode c' ++ r' -> c = c' /\ r = r'.
Proof.
  intros Sc Sc' E. unfold encode, scalar in *.
  destruct (Z.ltb_spec c 128); [|destruct (Z.ltb_spec c 2048); [|destruct (Z.ltb_spec c 65536)]];
  (destruct (Z.ltb_spec c' 128); [|destruct (Z.ltb_spec c' 2048); [|destruct (Z.ltb_spec c' 65536)]]);
  cbn [app] in E; repeat match goal with H : _ :: _ = _ :: _ |- _ => apply cons_same in H; destruct H end;
  first [exfalso; Z.div_mod_to_equations; lia|split; [|assumption]; Z.div_mod_to_equations; lia].
Qed.
Lemma encode_nonempty c r : encode c ++ r <> [].
Proof. unfold encode. destruct (c <? 128); [|destruct (c <? 2048); [|destruct (c <? 65536)]]; discriminate. Qed.
Lemma bytes_string bs : Forall is_byte bs -> exists s, text s = bs.
Proof.
  intros F. exists (string_of_list_ascii (map (fun b => ascii_of_nat (Z.to_nat b)) bs)). unfold text. rewrite list_ascii_of_string_of_list_ascii, map_map.
  rewrite <- (map_id bs) at 2. apply map_ext_in. intros b Hb. rewrite Forall_forall in F. specialize (F b Hb). unfold is_byte in F. rewrite nat_ascii_embedding by lia. lia.
Qed.
Lemma text_bytes s : Forall is_byte (text s).
Proof. unfold text. apply Forall_forall. intros b Hb. apply in_map_iff in Hb. destruct Hb as (c & <- & _). unfold is_byte. pose proof (nat_ascii_bounded c). lia. Qed.
Lemma text_length s : List.length (text s) = String.length s.
Proof. unfold text. rewrite map_length. induction s as [|c s IH]; [reflexivity|]. cbn. rewrite IH. reflexivity. Qed.

Lemma C70_utf8_proof :
  (forall bs, Forall is_byte bs -> (from_utf8 bs = true <-> exists cs, Forall scalar cs /\ bs = encode_all cs)) /\
  (forall cs cs', Forall scalar cs -> Forall scalar cs' -> encode_all cs = encode_all cs' -> cs = cs') /\
  (forall cs, Forall scalar cs -> exists s, is_str s cs) /\
  (forall s, utf8_check s = true <-> exists cs, is_str s cs).
Proof.
  assert (I : forall bs, Forall is_byte bs -> (from_utf8 bs = true <-> exists cs, Forall scalar cs /\ bs = encode_all cs)).
  { intros bs F. split; [apply (utf8_sound_len (List.length bs)); [lia|exact F]|]. intros (cs & Fc & ->). apply utf8_complete. exact Fc. }
  split; [exact I|]. split; [|split].
  - intros cs cs' F. revert cs'. induction F as [|c cs Sc F IH]; intros cs' F' E; cbn [encode_all flat_map] in E.
    + destruct F' as [|c' cs' Sc' F']; [reflexivity|]. symmetry in E. contradiction (encode_nonempty _ _ E).
    + destruct F' as [|c' cs' Sc' F']; [contradiction (encode_nonempty _ _ E)|]. cbn [flat_map] in E.
      apply encode_first in E; [|assumption|assumption]. destruct E as [-> E]. f_equal. apply IH; assumption.
  - intros cs F. destruct (bytes_string (encode_all cs) (encode_all_bytes cs F)) as (s & Hs). exists s. split; assumption.
  - intros s. unfold utf8_check. fold (text s). rewrite (I (text s) (text_bytes s)). reflexivity.
Qed.
Lemma C70_strings_proof :
  (forall s cs, is_str s cs -> Z.of_nat (List.length (encode_all cs)) < 2 ^ 64 -> spells (take_str utf8_check) (put_str s) s) /\
  (forall bs s rest, Forall is_byte bs -> (take_str utf8_check bs = ok (s, rest) <->
     exists l cs, is_str s cs /\ bs = l ++ encode_all cs ++ rest /\ varint 10 1 l (Z.of_nat (List.length (encode_all cs))))).
Proof.
  split.
  - intros s cs [F E] L. apply put_str_spells; [apply (proj2 (proj2 (proj2 C70_utf8_proof))); exists cs; split; assumption|]. rewrite <- text_length, E. exact L.
  - intros bs s rest F. pose proof (proj2 (proj2 (proj2 C70_utf8_proof)) s) as U. rewrite (take_str_iff utf8_check bs s rest F). rewrite <- text_length. split.
    + intros (l & H1 & H2 & H3). apply U in H3. destruct H3 as (cs & Fc & E). exists l, cs. rewrite E in H1, H2. repeat split; assumption.
    + intros (l & cs & [Fc E] & H1 & H2). exists l. rewrite E. split; [exact H1|]. split; [exact H2|]. apply U. exists cs. split; assumption.
Qed.
