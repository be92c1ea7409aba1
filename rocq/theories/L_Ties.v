(** Proofs: relation queries over games with rules. *)
From Coq Require Import ZArith List Bool Lia.
From Verif Require Import M_Outcome M_Value M_Qualifier M_Search M_Stat M_StatMap M_HashMap M_Pair M_Defaults M_Querier
  S_Search S_Pair S_StatMap S_Defaults S_Defaults2 S_Querier S_Totals S_EndToEnd S_Rules S_Ties
  L_Outcome L_StatMap L_StatMap3 L_Querier L_Querier2 L_QueryProofs L_CacheProofs L_EndToEnd L_EndToEnd2 L_MonoQuery L_Rules.
Import ListNotations.

Section L.
  Context {P : Prog} {Q : QFlag}.
  Notation VS s := (VT P (vt_value P (si_ty s))).
  Notation story s := (history (VS s)).
  Notation at_ s v := (Pair s (Buf (vt_value P (si_ty s)) v)).
  Hypothesis OQ : lawful_ord (q_cmp Q).
  Variable bs : list comparison -> bsres.
  Hypothesis C : bs_contract bs.
  Hypothesis D : distinct_vtables P.
  Variable T : StatTypes P.
  Variables o_size o_align : vty P -> Z.

  Lemma tied_sources (g : game P Q) l ts e f x : lawful_game T bs o_size o_align g l -> tied_game T g ts ->
    rel_sources (ruled T bs g l) e f x = map (fun y => law_stream T bs y (w_placeholder (j_world (g_querier g))) x) (l ++ map inr (ties g ts e f)) /\
    rel_causes g l ts e f = map cause_of (l ++ map inr (ties g ts e f)) /\
    Forall (good_law bs T) (l ++ map inr (ties g ts e f)).
  Proof.
    intros U [Ht Hv]. destruct (ruled_sources bs T o_size o_align g l e None x U) as (_ & _ & Hl). unfold laws_for in Hl. apply Forall_app in Hl as [Hl _].
    split; [|split].
    - unfold rel_sources, ruled. cbn [with_rules j_world j_rel w_relations w_placeholder or_nil]. rewrite map_app, map_map. rewrite !map_map. f_equal.
      rewrite (u_rel _ _ _ _ (proj1 U)). unfold ties. clear - Ht. induction Ht as [|k t ks ts' H Ht IH]; [reflexivity|].
      cbn [map flat_map combine]. rewrite !map_app, IH. f_equal. unfold between, ties_of. cbn [holding c_get c_rel fst snd].
      destruct (k_map k e) as [m|]; [|reflexivity]. destruct (k_map k f) as [m'|]; [|reflexivity]. cbn [map law_stream]. rewrite (H m m' x). reflexivity.
    - unfold rel_causes. rewrite map_app, map_map. reflexivity.
    - apply Forall_app. split; [exact Hl|]. apply Forall_map. unfold ties. clear - Ht Hv. induction Ht as [|k t ks ts' H Ht IH]; [constructor|].
      cbn [combine flat_map fst snd]. inversion Hv as [|? ? V1 V2]; subst. apply Forall_app. split; [|apply IH, V2].
      unfold ties_of. destruct (k_map k e); [|constructor]. destruct (k_map k f); [|constructor]. constructor; [exact V1|constructor].
  Qed.
  Lemma ask_relation (j : joined P Q) n e f x s : fits s -> ask j (S n) (p_relation e f x s) =
    let! o := answer j (S n) (RRel e f x s) in match o with None => Done None | Some b => let! v := cast_val P (vt_value P (si_ty s)) b in Done (Some v) end.
  Proof.
    intros F. unfold ask, p_relation. cbn [oeval check]. unfold fits in F. rewrite F. cbn [obind]. apply obind_ext. intros [b|]; [|reflexivity].
    cbn [M_Querier.typed]. unfold buf_into, buf_ref. rewrite F. cbn [obind]. destruct (cast_val _ _ b); reflexivity.
  Qed.
  Lemma C85_relation_proof (g : game P Q) l ts e f ce cf x s past v : flags_eq (Q := Q) -> lawful_game T bs o_size o_align g l -> tied_game T g ts -> fits s ->
    w_entities (j_world (g_querier g)) e = Some ce -> w_entities (j_world (g_querier g)) f = Some cf ->
    (yields (ruled T bs g l) past (p_relation e f x s) (Some v) <->
     exists k, leads (ruled T bs g l) (w_placeholder (j_world (g_querier g))) x s (starting g s) (rel_causes g l ts e f) k /\ value_of k = Done v).
  Proof.
    intros Hq U Ht F He Hf. pose proof (ruled_kept bs D T o_size o_align g l U) as Hk. rewrite (yields_ask D) by assumption.
    destruct (tied_sources g l ts e f x U Ht) as (Es & Ec & Hg). destruct (ruled_initial bs D T o_size o_align g l s (proj1 U) F) as (v0 & Ev0 & Ei). rewrite Ec.
    split.
    - intros [[|n] En]; [unfold ask, p_relation in En; cbn [oeval answer] in En; destruct (check _); discriminate En|].
      rewrite ask_relation in En by exact F. cbn [answer answer1] in En.
      change (w_entities (j_world (ruled T bs g l))) with (w_entities (j_world (g_querier g))) in En. rewrite He, Hf, Ei in En. cbn [obind] in En.
      rewrite Es in En. apply obind_inv in En as (o & Eo & En). apply obind_inv in Eo as (p & Ep & Eo). injection Eo as <-.
      destruct (leads_sound OQ bs C D T _ Hq Hk n _ x s F _ Hg _ _ _ Ev0 Ep) as (k & v' & Hl & Hv & ->). exists k. split; [exact Hl|].
      cbn [p_buf] in En. rewrite cast_val_same in En. cbn [obind] in En. congruence.
    - intros (k & Hl & Hv). destruct (leads_complete OQ bs C D T _ Hq Hk _ x s F _ Hg _ _ _ _ Hl Ev0 Hv) as [n En].
      exists (S n). rewrite ask_relation by exact F. cbn [answer answer1].
      change (w_entities (j_world (ruled T bs g l))) with (w_entities (j_world (g_querier g))). rewrite He, Hf, Ei. cbn [obind].
      rewrite Es, En. cbn [obind p_buf]. rewrite cast_val_same. reflexivity.
  Qed.
  Lemma C85_eval_proof (g : game P Q) l ts e f ce cf x s past r : flags_eq (Q := Q) -> lawful_game T bs o_size o_align g l -> tied_game T g ts -> fits s ->
    w_entities (j_world (g_querier g)) e = Some ce -> w_entities (j_world (g_querier g)) f = Some cf ->
    (yields (ruled T bs g l) past (p_relation_eval e f x s) (Some r) <->
     exists k, leads (ruled T bs g l) (w_placeholder (j_world (g_querier g))) x s (starting g s) (rel_causes g l ts e f) k /\ worth k = Done r).
  Proof.
    intros Hq U Ht F He Hf. split.
    - intros [n En]. rewrite C44_relation_eval_proof in En. destruct (run (client (ruled T bs g l) n (p_relation e f x s)) (after (ruled T bs g l) past [])) as [o c'] eqn:Er.
      cbn [fst] in En. apply obind_inv in En as ([v|] & -> & En); [|discriminate]. apply obind_inv in En as (r' & Ev & En). injection En as <-.
      destruct (proj1 (C85_relation_proof g l ts e f ce cf x s past v Hq U Ht F He Hf)) as (k & Hl & Hv); [exists n; rewrite Er; reflexivity|].
      exists k. split; [exact Hl|]. unfold worth. rewrite Hv. exact Ev.
    - intros (k & Hl & Hw). unfold worth in Hw. apply obind_inv in Hw as (v & Hv & Hw).
      destruct (proj2 (C85_relation_proof g l ts e f ce cf x s past v Hq U Ht F He Hf)) as (n & En); [eauto|]. exists n. rewrite C44_relation_eval_proof.
      destruct (run (client (ruled T bs g l) n (p_relation e f x s)) (after (ruled T bs g l) past [])) as [o c'] eqn:Er. cbn [fst] in *. subst o. cbn [obind]. rewrite Hw. reflexivity.
  Qed.
  (** Unless both are marked there is no relation. *)
  Lemma C85_unmarked_proof (g : game P Q) l e f x s past : flags_eq (Q := Q) -> lawful_game T bs o_size o_align g l -> fits s ->
    w_entities (j_world (g_querier g)) e = None \/ w_entities (j_world (g_querier g)) f = None ->
    yields (ruled T bs g l) past (p_relation e f x s) None.
  Proof.
    intros Hq U F H. pose proof (ruled_kept bs D T o_size o_align g l U) as Hk. rewrite (yields_ask D) by assumption. exists 1. rewrite ask_relation by exact F. cbn [answer answer1].
    change (w_entities (j_world (ruled T bs g l))) with (w_entities (j_world (g_querier g))).
    destruct H as [H|H]; rewrite H; [reflexivity|]. destruct (w_entities (j_world (g_querier g)) e); reflexivity.
  Qed.
End L.
