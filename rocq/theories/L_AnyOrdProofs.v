(** The proofs of P_AnyOrd.v. *)
From Coq Require Import ZArith Arith List Bool Lia Sorted Permutation Relations.
From Verif Require Import M_Outcome M_Value M_Qualifier M_Search M_Stat M_StatMap M_AnyOrd
  S_Search S_StatMap S_Demo S_AnyOrd L_Outcome L_StatMap L_StatMap3 L_StatMap4 L_StatMap5 L_AnyOrd L_AnyOrd2 L_AnyOrd3.
Import ListNotations.

Lemma C66_searches_proof : search_contract any_old /\ search_contract any_new /\
  (forall l, pure_search any_old l = bs_old l) /\ (forall l, pure_search any_new l = bs_new l).
Proof. exact (conj any_old_contract (conj any_new_contract (conj pure_old pure_new))). Qed.

Lemma C66_sorts_proof : sort_contract insertion /\ sort_contract merging /\
  forall A (c : asked A A) l, (forall n a b, c n a b <> None) -> snd (merging A c l) = true.
Proof.
  split; [exact insertion_contract|]. split; [exact merging_contract|].
  intros A c l N. apply merge_sort_returns; [exact N|lia].
Qed.

Lemma C66_any_order_safe_proof :
  forall (P : Prog) (Q : QFlag) (sr : searcher) (srt : sorter),
  search_contract sr -> sort_contract srt -> distinct_vtables P ->
  forall l : list (acall P Q), Forall any_sound l -> any_run sr srt [] l <> UB.
Proof. intros P Q sr srt C K D l S. apply (any_run_good sr srt C K D l [] good_nil S). Qed.

Lemma C66_any_order_observers_proof :
  forall (P : Prog) (Q : QFlag) (sr : searcher) (srt : sorter),
  search_contract sr -> sort_contract srt -> distinct_vtables P -> sound_prog (P:=P) ->
  forall (l : list (acall P Q)) (m : map_t P Q), Forall any_sound l -> any_run sr srt [] l = Done m ->
  (forall c q s, any_get sr c m q s <> UB) /\ (forall c q s, any_get_evaled sr c m q s <> UB) /\
  (forall s, m_iter (pure_search sr) m s <> UB) /\ (forall x s, m_query (pure_search sr) m x s <> UB) /\
  (forall x s, m_eval (pure_search sr) m x s <> UB) /\ m_clone m = Done m /\ m_drop m = Done tt.
Proof.
  intros P Q sr srt C K D [J E] l m S R. destruct (any_run_good sr srt C K D l [] good_nil S) as [_ G]. specialize (G m R).
  assert (H1 : forall c q s, any_get sr c m q s <> UB).
  { intros c q s. destruct (any_get_spec sr C D c m q s G) as [->|[->|(q' & v & n & -> & _)]]; discriminate. }
  assert (H2 : forall x s, m_query (pure_search sr) m x s <> UB).
  { intros x s. rewrite (any_query sr C D m x s G). unfold validate_ty, validate.
    destruct (_ || _); [|discriminate]. destruct (24 <? _)%Z; [discriminate|]. cbn [obind]. apply join_all_safe, J. }
  split; [exact H1|]. split.
  { intros c q s. unfold any_get_evaled. specialize (H1 c q s). destruct (any_get sr c m q s) as [[v|]|p| |]; cbn [obind]; try congruence.
    specialize (E _ v). destruct (sv_eval (VT P (vt_value P (si_ty s))) v); cbn [obind]; congruence. }
  split; [intros s; destruct (any_iter sr C D m s G) as [-> _]; discriminate|]. split; [exact H2|]. split.
  { intros x s. unfold m_eval. specialize (H2 x s). destruct (m_query (pure_search sr) m x s) as [v|p| |]; cbn [obind]; [apply E|discriminate|congruence|discriminate]. }
  destruct G as [_ T]. split; [apply clone_typed, T|apply drop_all_ok, T].
Qed.

Lemma C66_queries_exact_proof :
  forall (P : Prog) (Q : QFlag) (sr : searcher) (srt : sorter),
  search_contract sr -> sort_contract srt -> distinct_vtables P ->
  forall (l : list (acall P Q)) (m : map_t P Q), Forall any_sound l -> any_run sr srt [] l = Done m ->
  forall s, exists es, entries_of m s es /\ m_iter (pure_search sr) m s = Done es /\
  (forall x, m_query (pure_search sr) m x s =
    let! _ := validate_ty P (vt_value P (si_ty s)) in join_all s (sv_default (VT P (vt_value P (si_ty s)))) (filter (fun p => qualifies_as (fst p) x) es)) /\
  forall c q v, any_get sr c m q s = Done (Some v) -> exists q' n, In (q', v) es /\ c n q' q = Some Eq.
Proof.
  intros P Q sr srt C K D l m S R s. destruct (any_run_good sr srt C K D l [] good_nil S) as [_ G]. specialize (G m R).
  destruct (any_iter sr C D m s G) as [I E]. exists (reads s (of_stat s m)). split; [exact E|]. split; [exact I|].
  split; [intros x; apply (any_query sr C D m x s G)|].
  intros c q v H. destruct (any_get_spec sr C D c m q s G) as [F|[F|(q' & v' & n & F & Hin & Hn)]]; rewrite F in H; inversion H; subst.
  exists q', n. split; [|exact Hn]. apply reads_In; [apply of_stat_typed, G|apply (of_stat_all D)|].
  apply filter_In. split; [exact Hin|]. apply (inst_eqb_iff D). reflexivity.
Qed.

Lemma C66_lawful_order_same_proof :
  forall (P : Prog) (Q : QFlag) (sr : searcher), search_contract sr -> distinct_vtables P -> lawful_ord (q_cmp Q) ->
  forall (l : list (mop P Q)) (m : map_t P Q) k,
  any_run sr insertion m (map (fun o => ACall o steady k) l) = mops_run (pure_search sr) m l.
Proof. intros P Q sr C D OQ l m k. apply (steady_run sr C D OQ). Qed.

Definition is_ub {A} (o : outcome A) : bool := match o with UB => true | _ => false end.
Lemma is_ub_true {A} (o : outcome A) : is_ub o = true -> o = UB. Proof. destruct o; cbn; congruence. Qed.
Definition boom_calls : list (acall demo intQ) :=
  [au (always Lt) (put_alive none true); au (always Lt) (put_hp none 5);
   ac booms (extend_atk [(none, 0%Z, num 1); (fire, 0%Z, num 2)])].
Lemma C66_caught_sort_panic_refuted_proof :
  exists (l : list (acall demo intQ)) m, Forall (fun k => sound_op (a_op k)) l /\
  any_run any_new insertion [] l = Done m /\ m_query bs_new m (@Aggregate intQ 0%Z) atk = UB.
Proof.
  exists boom_calls, (ademo boom_calls). split; [repeat constructor|]. split.
  - assert (H : aruns boom_calls = true) by (vm_compute; reflexivity). unfold aruns, ademo in *.
    destruct (any_run any_new insertion [] boom_calls); [reflexivity|discriminate..].
  - apply is_ub_true. vm_compute. reflexivity.
Qed.
Lemma C66_map_semantics_refuted_proof :
  exists (c : flag_order intQ) (l : list (mop demo intQ)) m, (forall n a b, c n a b <> None) /\
  any_run any_new insertion [] (map (fun o => ACall o c false) l) = Done m /\
  l = [put_hp none 3; put_hp none 4] /\ aget_hp c m none = Done None /\ length m = 2.
Proof.
  exists (always Lt), [put_hp none 3; put_hp none 4], (ademo (map (fun o => ACall o (always Lt) false) [put_hp none 3; put_hp none 4])).
  split; [discriminate|]. split.
  - assert (H : aruns (map (fun o => ACall o (always Lt) false) [put_hp none 3; put_hp none 4]) = true) by (vm_compute; reflexivity).
    unfold aruns, ademo in *. destruct (any_run any_new insertion [] _); [reflexivity|discriminate..].
  - split; [reflexivity|]. vm_compute. split; reflexivity.
Qed.
