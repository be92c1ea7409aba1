From Coq Require Import String ZArith Lia Bool List.
From Verif Require Import M_Outcome M_Ints M_Ratio M_Float M_Value M_Types M_Qualifier M_Stat M_HashMap M_Pair M_Defaults M_Querier M_Poison M_Serde M_ValueSerde
  S_Totals S_ValueSerde L_Ints.
Import ListNotations.
Local Open Scope Z_scope.

(** ** Structs *)
Lemma index_of_some n l i : index_of n l = Some i -> nth_error l i = Some n.
Proof.
  revert i. induction l as [|x l IH]; intros i; cbn; [discriminate|]. destruct (String.eqb n x) eqn:E.
  - intros H; injection H as <-. apply String.eqb_eq in E as ->. reflexivity.
  - destruct (index_of n l) as [k|]; cbn; [|discriminate]. intros H; injection H as <-. cbn. apply IH. reflexivity.
Qed.
Lemma index_of_none n l i : index_of n l = None -> nth_error l i = Some n -> False.
Proof.
  revert i. induction l as [|x l IH]; intros i; cbn; [destruct i; discriminate|]. destruct (String.eqb n x) eqn:E; [discriminate|].
  destruct (index_of n l); [discriminate|]. intros _. destruct i as [|i]; cbn.
  - intros H; injection H as ->. rewrite String.eqb_refl in E. discriminate.
  - apply IH. reflexivity.
Qed.
Lemma index_of_nth names i n : NoDup names -> nth_error names i = Some n -> index_of n names = Some i.
Proof.
  intros Hd Hn. destruct (index_of n names) as [k|] eqn:E; [|destruct (index_of_none _ _ _ E Hn)].
  apply index_of_some in E. f_equal. apply (proj1 (NoDup_nth_error names) Hd).
  - apply nth_error_Some. rewrite E. discriminate.
  - congruence.
Qed.
Lemma set_nth_length {A} i (a : A) l : List.length (set_nth i a l) = List.length l.
Proof. revert i; induction l as [|x l IH]; intros [|i]; cbn; auto. Qed.
Lemma set_nth_same {A} i (a : A) l : (i < List.length l)%nat -> nth_error (set_nth i a l) i = Some a.
Proof. revert i; induction l as [|x l IH]; intros [|i] H; cbn in *; try lia; auto. apply IH. lia. Qed.
Lemma set_nth_other {A} i k (a : A) l : i <> k -> nth_error (set_nth i a l) k = nth_error l k.
Proof. revert i k; induction l as [|x l IH]; intros [|i] [|k] H; cbn; auto; contradiction. Qed.
Lemma all_some_iff {A} (l : list (option A)) r : all_some l = Some r <-> l = map Some r.
Proof.
  revert r. induction l as [|[a|] l IH]; intros r; cbn.
  - split; [intros H; injection H as <-; reflexivity|]. destruct r; [reflexivity|discriminate].
  - destruct (all_some l) as [r'|]; cbn.
    + split; [intros H; injection H as <-; cbn; f_equal; apply IH; reflexivity|]. destruct r as [|b r]; cbn; [discriminate|].
      intros H; injection H as -> H. apply IH in H. injection H as ->. reflexivity.
    + split; [discriminate|]. destruct r as [|b r]; cbn; [discriminate|]. intros H; injection H as -> H. apply IH in H. discriminate.
  - split; [discriminate|]. destruct r; discriminate.
Qed.
Lemma nth_ext {A} (l k : list A) : (forall i, nth_error l i = nth_error k i) -> l = k.
Proof.
  revert k. induction l as [|x l IH]; intros [|y k] H; [reflexivity|specialize (H 0%nat); discriminate|specialize (H 0%nat); discriminate|].
  assert (E := H 0%nat). injection E as ->. f_equal. apply IH. intros i. apply (H (S i)).
Qed.
Definition named_n (n : string) (l : list (string * doc)) := filter (fun p => String.eqb (fst p) n) l.
Definition spot (g : option doc) (n : string) (x : doc) l : Prop :=
  match g with Some y => y = x /\ named_n n l = [] | None => named_n n l = [(n, x)] end.
Lemma visit_map_iff names (Hd : NoDup names) l : forall got ds, List.length got = List.length names ->
  (visit_map names got l = Some ds <->
   List.length ds = List.length names /\
   forall i n x g, nth_error names i = Some n -> nth_error ds i = Some x -> nth_error got i = Some g -> spot g n x l).
Proof.
  induction l as [|[n d] l IH]; intros got ds Hl; cbn [visit_map].
  - rewrite all_some_iff. split.
    + intros ->. rewrite map_length in Hl. split; [exact Hl|]. intros i n x g Hn Hx Hg. rewrite (map_nth_error _ _ _ Hx) in Hg. injection Hg as <-. cbn. auto.
    + intros [H1 H2]. apply nth_ext. intros i. destruct (nth_error ds i) as [x|] eqn:Hx.
      * rewrite (map_nth_error _ _ _ Hx). assert (Hi : (i < List.length ds)%nat) by (apply nth_error_Some; rewrite Hx; discriminate).
        destruct (nth_error got i) as [g|] eqn:Hg; [|apply nth_error_None in Hg; lia].
        destruct (nth_error names i) as [m|] eqn:Hm; [|apply nth_error_None in Hm; lia].
        specialize (H2 i m x g Hm Hx Hg). destruct g as [y|]; cbn in H2; [destruct H2 as [-> _]; reflexivity|discriminate].
      * apply nth_error_None in Hx. rewrite !(proj2 (nth_error_None _ _)); [reflexivity|rewrite map_length; lia|lia].
  - assert (K : forall m, named_n m ((n, d) :: l) = if String.eqb n m then (n, d) :: named_n m l else named_n m l) by reflexivity.
    destruct (index_of n names) as [i|] eqn:Ei.
    + assert (Hi := index_of_some _ _ _ Ei). assert (Hlt : (i < List.length names)%nat) by (apply nth_error_Some; rewrite Hi; discriminate).
      destruct (nth_error got i) as [[y|]|] eqn:Hg; [| |apply nth_error_None in Hg; lia].
      * split; [discriminate|]. intros [H1 H2]. destruct (nth_error ds i) as [x|] eqn:Hx; [|apply nth_error_None in Hx; lia].
        specialize (H2 i n x _ Hi Hx Hg). unfold spot in H2. rewrite K, String.eqb_refl in H2. destruct H2; discriminate.
      * rewrite IH by (rewrite set_nth_length; exact Hl). split; intros [H1 H2]; (split; [exact H1|]); intros k m x g Hm Hx Hgk.
        -- destruct (Nat.eq_dec i k) as [<-|Hne].
           ++ assert (m = n) by congruence. subst m. assert (g = None) by congruence. subst g.
              specialize (H2 i n x (Some d) Hi Hx (set_nth_same _ _ _ (eq_rect_r (fun z => (i < z)%nat) Hlt Hl))). unfold spot in H2. destruct H2 as [-> H2].
              unfold spot. rewrite K, String.eqb_refl, H2. reflexivity.
           ++ specialize (H2 k m x g Hm Hx). rewrite set_nth_other in H2 by exact Hne. specialize (H2 Hgk). unfold spot in *. rewrite K.
              destruct (String.eqb n m) eqn:E; [|exact H2]. apply String.eqb_eq in E as <-. rewrite (index_of_nth _ _ _ Hd Hm) in Ei. injection Ei as ->. contradiction.
        -- destruct (Nat.eq_dec i k) as [<-|Hne].
           ++ assert (m = n) by congruence. subst m. rewrite set_nth_same in Hgk by (rewrite Hl; exact Hlt). injection Hgk as <-.
              specialize (H2 i n x None Hi Hx Hg). unfold spot in H2. rewrite K, String.eqb_refl in H2. injection H2 as -> H2. unfold spot. auto.
           ++ rewrite set_nth_other in Hgk by exact Hne. specialize (H2 k m x g Hm Hx Hgk). unfold spot in *. rewrite K in H2.
              destruct (String.eqb n m) eqn:E; [|exact H2]. apply String.eqb_eq in E as <-. rewrite (index_of_nth _ _ _ Hd Hm) in Ei. injection Ei as ->. contradiction.
    + rewrite IH by exact Hl. split; intros [H1 H2]; (split; [exact H1|]); intros k m x g Hm Hx Hgk; specialize (H2 k m x g Hm Hx Hgk); unfold spot in *; rewrite K in *;
        (destruct (String.eqb n m) eqn:E; [apply String.eqb_eq in E as <-; destruct (index_of_none _ _ _ Ei Hm)|exact H2]).
Qed.
Lemma surplus_iff strict l : surplus strict l = false <-> (strict = true -> l = []).
Proof. destruct strict, l; cbn; split; intros; auto; try discriminate. specialize (H eq_refl). discriminate. Qed.

Lemma fields_of_iff strict names d ds : NoDup names -> (fields_of strict names d = Some ds <-> fields_are strict names d ds).
Proof.
  intros Hd. unfold fields_are. destruct d as [|b|z|s|l|l]; cbn [fields_of]; try (split; [discriminate|]; intros [_ [(l & E & _)|(r & E & _)]]; discriminate).
  - unfold visit_seq. split.
    + destruct (Nat.ltb (List.length l) (List.length names)) eqn:E; [discriminate|]. apply Nat.ltb_ge in E.
      destruct (surplus strict (skipn (List.length names) l)) eqn:Es; [discriminate|]. intros H; injection H as <-.
      split; [rewrite firstn_length; lia|]. right. exists (skipn (List.length names) l). rewrite firstn_skipn. split; [reflexivity|]. apply surplus_iff, Es.
    + intros [Hl [(l' & E & _)|(rest & E & Hs)]]; [discriminate|]. injection E as ->. rewrite app_length, Hl.
      replace (Nat.ltb _ _) with false by (symmetry; apply Nat.ltb_ge; lia). rewrite <- Hl, skipn_app, skipn_all, Nat.sub_diag. cbn [skipn app].
      apply surplus_iff in Hs. rewrite Hs. rewrite firstn_app, firstn_all, Nat.sub_diag. cbn. rewrite app_nil_r. reflexivity.
  - rewrite visit_map_iff by (try exact Hd; apply map_length).
    assert (G : forall i, (i < List.length names)%nat -> nth_error (map (fun _ : string => @None doc) names) i = Some None).
    { intros i Hi. destruct (nth_error names i) eqn:E; [apply (map_nth_error _ _ _ E)|apply nth_error_None in E; lia]. }
    split; intros [H1 H2]; (split; [exact H1|]).
    + left. exists l. split; [reflexivity|]. intros i n x Hn Hx. apply (H2 i n x None Hn Hx). apply G. apply nth_error_Some. rewrite Hn. discriminate.
    + destruct H2 as [(l' & E & H2)|(r & E & _)]; [|discriminate]. injection E as <-. intros i n x g Hn Hx Hg.
      rewrite G in Hg by (apply nth_error_Some; rewrite Hn; discriminate). injection Hg as <-. exact (H2 i n x Hn Hx).
Qed.

(** What is written as a struct is one. *)
Lemma written_struct named strict fs : NoDup (map fst fs) -> fields_of strict (map fst fs) (ser_struct named fs) = Some (map snd fs).
Proof.
  intros Hd. apply fields_of_iff; [exact Hd|]. split; [rewrite !map_length; reflexivity|]. destruct named; cbn.
  - left. exists fs. split; [reflexivity|]. intros i n x Hn Hx. revert i Hn Hx Hd. induction fs as [|[m y] fs IH]; intros i Hn Hx Hd; cbn in *; [destruct i; discriminate|].
    inversion Hd as [|? ? Hi Hd']; subst. destruct i as [|i]; cbn in Hn, Hx.
    + injection Hn as ->. injection Hx as ->. rewrite String.eqb_refl. f_equal. clear - Hi. induction fs as [|[k z] fs IH]; [reflexivity|]. cbn in *.
      destruct (String.eqb k n) eqn:E; [apply String.eqb_eq in E as ->; exfalso; apply Hi; left; reflexivity|]. apply IH. intros H; apply Hi; right; exact H.
    + destruct (String.eqb m n) eqn:E; [|apply (IH i Hn Hx Hd')]. apply String.eqb_eq in E as ->. exfalso. apply Hi. eapply nth_error_In; exact Hn.
  - right. exists []. rewrite app_nil_r. auto.
Qed.

(** ** Enums *)
Lemma variant_of_iff named names d i c : NoDup names -> (variant_of named names d = Some (i, c) <-> variant_is named names d i c).
Proof.
  intros Hd. unfold variant_of, variant_is. destruct named.
  - split.
    + destruct d as [|b|z|s|l|[|[n x] [|q l]]]; try discriminate.
      * destruct (index_of s names) as [k|] eqn:E; cbn; [|discriminate]. intros H; injection H as <- <-. exists s. split; [apply index_of_some, E|reflexivity].
      * destruct (index_of n names) as [k|] eqn:E; cbn; [|discriminate]. intros H; injection H as <- <-. exists n. split; [apply index_of_some, E|reflexivity].
    + intros (n & Hn & H). assert (E := index_of_nth _ _ _ Hd Hn). destruct c as [x|]; subst d; cbn; rewrite E; reflexivity.
  - assert (B : forall z c', by_number (List.length names) z c' = Some (i, c) <-> z = Z.of_nat i /\ (i < List.length names)%nat /\ c' = c).
    { intros z c'. unfold by_number. destruct ((0 <=? z) && (z <? Z.of_nat (List.length names))) eqn:E.
      - apply andb_true_iff in E as [E1 E2]. apply Z.leb_le in E1. apply Z.ltb_lt in E2. split.
        + intros H; injection H as <- <-. rewrite Z2Nat.id by lia. repeat split. apply Nat2Z.inj_lt. rewrite Z2Nat.id by lia. exact E2.
        + intros (-> & _ & ->). rewrite Nat2Z.id. reflexivity.
      - split; [discriminate|]. intros (-> & H & _). apply andb_false_iff in E as [E|E]; [apply Z.leb_gt in E|apply Z.ltb_ge in E]; lia. }
    assert (L : (i < List.length names)%nat -> exists n, nth_error names i = Some n).
    { intros H. destruct (nth_error names i) eqn:E; [eauto|]. apply nth_error_None in E. lia. }
    split.
    + destruct d as [|b|z|s|[|d1 [|d2 [|d3 l]]]|l]; try discriminate; destruct d1; try discriminate; intros H; apply B in H as (-> & H & <-);
        destruct (L H) as [n Hn]; exists n; (split; [exact Hn|reflexivity]).
    + intros (n & Hn & H). assert (Hi : (i < List.length names)%nat) by (apply nth_error_Some; rewrite Hn; discriminate).
      destruct c as [x|]; subst d; apply B; auto.
Qed.
Lemma written_variant named names i n c : NoDup names -> nth_error names i = Some n -> variant_of named names (variant_doc named i n c) = Some (i, c).
Proof. intros Hd Hn. apply variant_of_iff; [exact Hd|]. exists n. split; [exact Hn|]. unfold variant_doc. destruct named; [destruct c; reflexivity|reflexivity]. Qed.

Ltac nodup := repeat constructor; cbn; intuition discriminate.

(** ** Reading *)
Ltac rdopt H := repeat match type of H with
  | match rd ?L ?x with _ => _ end = _ => let E := fresh "R" in destruct (rd L x) eqn:E; try discriminate H
  end.
Section Read.
  Variable named strict : bool.
  Context {A M : Type} (LA : leaf A) (LM : leaf M).
  Lemma quad_iff d v : rd (leaf_quad named strict LA LM) d = Some v <->
    exists a lo hi m, fields_are strict ["addend"; "min"; "max"; "mult"]%string d [a; lo; hi; m] /\
      rd LA a = Some (addend v) /\ rd LA lo = Some (vmin v) /\ rd LA hi = Some (vmax v) /\ rd LM m = Some (mult v).
  Proof.
    cbn [rd leaf_quad]. split.
    - destruct (fields_of _ _ d) as [[|a [|lo [|hi [|m [|? ?]]]]]|] eqn:E; try discriminate. apply fields_of_iff in E; [|nodup].
      intros H. rdopt H. injection H as <-. exists a, lo, hi, m. auto.
    - intros (a & lo & hi & m & F & Ha & Hl & Hh & Hm). apply fields_of_iff in F; [|nodup]. rewrite F, Ha, Hl, Hh, Hm. destruct v; reflexivity.
  Qed.
  Lemma rounded_iff d v : rd (leaf_rounded named strict LA LM) d = Some v <->
    exists a lo hi m, fields_are strict ["addend"; "min"; "max"; "mult"; "rounding"]%string d [a; lo; hi; m; DNull] /\
      rd LA a = Some (addend v) /\ rd LA lo = Some (vmin v) /\ rd LA hi = Some (vmax v) /\ rd LM m = Some (mult v).
  Proof.
    cbn [rd leaf_rounded]. split.
    - destruct (fields_of _ _ d) as [[|a [|lo [|hi [|m [|r [|? ?]]]]]]|] eqn:E; try discriminate. apply fields_of_iff in E; [|nodup].
      intros H. rdopt H. cbn in R3. destruct r; try discriminate. cbn in H. injection H as <-. exists a, lo, hi, m. auto.
    - intros (a & lo & hi & m & F & Ha & Hl & Hh & Hm). apply fields_of_iff in F; [|nodup]. rewrite F, Ha, Hl, Hh, Hm. destruct v; reflexivity.
  Qed.
  Lemma percent_iff d v : rd (leaf_percent named strict LA LM) d = Some v <->
    exists a lo hi m, fields_are strict ["addend"; "mult"; "min"; "max"; "rounding"]%string d [a; m; lo; hi; DNull] /\
      rd LA a = Some (addend v) /\ rd LA lo = Some (vmin v) /\ rd LA hi = Some (vmax v) /\ rd LM m = Some (mult v).
  Proof.
    cbn [rd leaf_percent]. split.
    - destruct (fields_of _ _ d) as [[|a [|m [|lo [|hi [|r [|? ?]]]]]]|] eqn:E; try discriminate. apply fields_of_iff in E; [|nodup].
      intros H. rdopt H. cbn in R3. destruct r; try discriminate. cbn in H. injection H as <-. exists a, lo, hi, m. auto.
    - intros (a & lo & hi & m & F & Ha & Hl & Hh & Hm). apply fields_of_iff in F; [|nodup]. rewrite F, Ha, Hm, Hl, Hh. destruct v; reflexivity.
  Qed.
  Lemma prio_iff d v : rd (leaf_prio named strict LA) d = Some v <->
    exists x p, fields_are strict ["value"; "priority"]%string d [x; p] /\ rd LA x = Some (p_value v) /\ rd (leaf_int I32) p = Some (p_priority v).
  Proof.
    cbn [rd leaf_prio]. split.
    - destruct (fields_of _ _ d) as [[|x [|p [|? ?]]]|] eqn:E; try discriminate. apply fields_of_iff in E; [|nodup].
      intros H. rdopt H. injection H as <-. exists x, p. auto.
    - intros (x & p & F & Hx & Hp). apply fields_of_iff in F; [|nodup]. rewrite F, Hx, Hp. destruct v; reflexivity.
  Qed.
  Lemma once_iff d v : rd (leaf_once named LA) d = Some v <->
    match v with
    | NotFound => unit_is named once_variants d 0
    | Found a => exists x, variant_is named once_variants d 1 (Some x) /\ rd LA x = Some a
    | FoundMultiple => unit_is named once_variants d 2
    end.
  Proof.
    assert (Hd : NoDup once_variants) by nodup.
    cbn [rd leaf_once]. split.
    - destruct (variant_of named once_variants d) as [[i c]|] eqn:E; [|discriminate]. apply variant_of_iff in E; [|exact Hd].
      destruct i as [|[|[|i]]]; try discriminate.
      + destruct (no_content named c) eqn:N; [|discriminate]. intros H; injection H as <-. unfold unit_is. destruct c as [[]|]; cbn in N; try discriminate; auto.
      + destruct c as [x|]; [|discriminate]. destruct (rd LA x) eqn:R; cbn; [|discriminate]. intros H; injection H as <-. eauto.
      + destruct (no_content named c) eqn:N; [|discriminate]. intros H; injection H as <-. unfold unit_is. destruct c as [[]|]; cbn in N; try discriminate; auto.
    - destruct v as [|a|].
      + intros [E|[N E]]; apply variant_of_iff in E; try exact Hd; rewrite E; cbn; [reflexivity|rewrite N; reflexivity].
      + intros (x & E & R). apply variant_of_iff in E; try exact Hd. rewrite E, R. reflexivity.
      + intros [E|[N E]]; apply variant_of_iff in E; try exact Hd; rewrite E; cbn; [reflexivity|rewrite N; reflexivity].
  Qed.
End Read.
Lemma mult_iff named strict F (LF : leaf (fcar F)) d v : rd (leaf_mult named strict LF) d = Some v <->
  exists lo hi m, fields_are strict ["min"; "max"; "mult"]%string d [lo; hi; m] /\
    rd LF lo = Some (t_min v) /\ rd LF hi = Some (t_max v) /\ rd LF m = Some (t_mult v).
Proof.
  cbn [rd leaf_mult]. split.
  - destruct (fields_of _ _ d) as [[|lo [|hi [|m [|? ?]]]]|] eqn:E; try discriminate. apply fields_of_iff in E; [|nodup].
    intros H. rdopt H. injection H as <-. exists lo, hi, m. auto.
  - intros (lo & hi & m & F' & Hl & Hh & Hm). apply fields_of_iff in F'; [|nodup]. rewrite F', Hl, Hh, Hm. destruct v; reflexivity.
Qed.
Lemma flags_iff named strict G (LG : leaf (gcar G)) d v : rd (leaf_flags named strict LG) d = Some v <->
  exists n o, fields_are strict ["not"; "or"]%string d [n; o] /\ rd LG n = Some (f_not v) /\ rd LG o = Some (f_or v).
Proof.
  cbn [rd leaf_flags]. split.
  - destruct (fields_of _ _ d) as [[|n [|o [|? ?]]]|] eqn:E; try discriminate. apply fields_of_iff in E; [|nodup].
    intros H. rdopt H. injection H as <-. exists n, o. auto.
  - intros (n & o & F & Hn & Ho). apply fields_of_iff in F; [|nodup]. rewrite F, Hn, Ho. destruct v; reflexivity.
Qed.
Lemma ratio_iff strict (I : leaf Z) d r : rd (leaf_ratio strict I) d = Some r <->
  exists a b, pair_is strict d a b /\ rd I a = Some (numer r) /\ rd I b = Some (denom r) /\ denom r <> 0.
Proof.
  cbn [rd leaf_ratio]. unfold pair_is. split.
  - destruct d as [|b|z|s|[|a [|b rest]]|l]; try discriminate. intros H. rdopt H.
    destruct (surplus strict rest) eqn:E; [discriminate|]. destruct (z0 =? 0) eqn:Z0; [discriminate|]. injection H as <-. apply Z.eqb_neq in Z0.
    exists a, b. repeat split; auto. exists rest. split; [reflexivity|]. apply surplus_iff, E.
  - intros (a & b & (rest & -> & Hs) & Ha & Hb & Hn). rewrite Ha, Hb. apply surplus_iff in Hs. rewrite Hs. apply Z.eqb_neq in Hn. rewrite Hn. destruct r; reflexivity.
Qed.
Lemma int_iff t d z : rd (leaf_int t) d = Some z <-> d = DInt z /\ small t z.
Proof.
  cbn. split.
  - destruct d; try discriminate. destruct (in_range t z0) eqn:E; [|discriminate]. intros H; injection H as ->. auto.
  - intros [-> H]. unfold small in H. rewrite H. reflexivity.
Qed.
Lemma op_iff named S (La : leaf (addT S)) Lm Lb Lr Lz d o : rd (leaf_op named La Lm Lb Lr Lz) d = Some o <->
  match o with
  | OAdd x => exists c, variant_is named op_variants d 0 (Some c) /\ rd La c = Some x
  | OMul x => exists c, variant_is named op_variants d 1 (Some c) /\ rd Lm c = Some x
  | OOr x => exists c, variant_is named op_variants d 2 (Some c) /\ rd Lb c = Some x
  | ONot x => exists c, variant_is named op_variants d 3 (Some c) /\ rd Lb c = Some x
  | OMin x => exists c, variant_is named op_variants d 4 (Some c) /\ rd Lr c = Some x
  | OMax x => exists c, variant_is named op_variants d 5 (Some c) /\ rd Lr c = Some x
  | OBase x => exists c, variant_is named op_variants d 6 (Some c) /\ rd Lz c = Some x
  end.
Proof.
  assert (Hd : NoDup op_variants) by nodup. cbn [rd leaf_op]. split.
  - destruct (variant_of named op_variants d) as [[i [c|]]|] eqn:E; [|destruct i as [|[|[|[|[|[|[|i]]]]]]]; discriminate|discriminate].
    apply variant_of_iff in E; [|exact Hd].
    destruct i as [|[|[|[|[|[|[|i]]]]]]]; try discriminate;
      (match goal with |- option_map _ (rd ?L c) = _ -> _ => destruct (rd L c) eqn:R end; cbn; [|discriminate]; intros H; injection H as <-; eauto).
  - destruct o; intros (c & E & R); apply variant_of_iff in E; try exact Hd; rewrite E, R; reflexivity.
Qed.
