(** One thread alone is a case of threads. *)
From Coq Require Import ZArith List Bool.
From Verif Require Import M_Outcome M_Value M_Types M_Qualifier M_Stat M_HashMap M_Pair M_Defaults M_Querier M_Poison L_Poison.
Import ListNotations.

Lemma log_none {P} (lg : plog P) : log_app no_log lg = lg.
Proof. destruct lg. reflexivity. Qed.
Lemma C57_alone_proof : forall (P : Prog) (Q : QFlag) (cp dp : buffer P -> bool) (A : Type) (m : act P Q A) st,
  exists m' lg, psteps cp dp ([m], st) lg ([m'], snd (prun cp dp m st)) /\ finished m' (fst (prun cp dp m st)).
Proof.
  intros P Q cp dp A m. 
  assert (R : forall (m : act P Q A) st (m' : act P Q A) st' lg, pstep cp dp m st = Some (m', st', lg) ->
    (exists m'' lg', psteps cp dp ([m'], st') lg' ([m''], snd (prun cp dp m' st')) /\ finished m'' (fst (prun cp dp m' st'))) ->
    prun cp dp m st = prun cp dp m' st' ->
    exists m' lg, psteps cp dp ([m], st) lg ([m'], snd (prun cp dp m st)) /\ finished m' (fst (prun (A := A) cp dp m st))).
  { intros m0 st m' st' lg E (m'' & lg' & H1 & H2) Eq. rewrite Eq. exists m'', (log_app lg lg'). split; [|exact H2]. exact (psteps_one P Q cp dp [] m0 [] st m' st' lg lg' _ E H1). }
  assert (F : forall (o : outcome Empty_set) st, exists m'' lg', psteps cp dp ([AFail o : act P Q A], st) lg' ([m''], snd (prun cp dp (AFail o : act P Q A) st)) /\ finished m'' (fst (prun (A := A) cp dp (AFail o) st))).
  { intros o st. exists (AFail o), no_log. split; [constructor|reflexivity]. }
  induction m as [a|o|k f IH|k b f IH|f IH]; intros st.
  - exists (ARet a), no_log. split; [constructor|reflexivity].
  - apply F.
  - destruct st as [c []]; [eapply R; [reflexivity|apply F|reflexivity]|].
    destruct (hget key_eqb c k) as [b|] eqn:G; [destruct (cp b) eqn:C|].
    + eapply R; [cbn; rewrite G, C; reflexivity|apply F|cbn; rewrite G, C; reflexivity].
    + eapply R; [cbn; rewrite G, C; reflexivity|apply IH|cbn; rewrite G, C; reflexivity].
    + eapply R; [cbn; rewrite G; reflexivity|apply IH|cbn; rewrite G; reflexivity].
  - destruct st as [c []]; [eapply R; [reflexivity|apply F|reflexivity]|]. destruct (cp b) eqn:C.
    + eapply R; [cbn; rewrite C; reflexivity|apply F|cbn; rewrite C; reflexivity].
    + eapply R; [cbn; rewrite C; reflexivity|apply IH|cbn; rewrite C; reflexivity].
  - destruct st as [c []]; [eapply R; [reflexivity|apply F|reflexivity]|]. destruct (snd (drop_loop dp (map snd c))) eqn:D.
    + eapply R; [cbn; rewrite D; reflexivity|apply F|cbn; rewrite D; reflexivity].
    + eapply R; [cbn; rewrite D; reflexivity|apply IH|cbn; rewrite D; reflexivity].
Qed.

(** When the lock is poisoned: exactly by a clone that panics while storing, or a drop while
    clearing. *)
Lemma C57_poisoned_iff_proof : forall (P : Prog) (Q : QFlag) (cp dp : buffer P -> bool) (A : Type) (m : act P Q A) c m' st' lg,
  pstep cp dp m (PCache c false) = Some (m', st', lg) ->
  (pc_poisoned st' = true <->
   (exists k b f, m = APut k b f /\ cp b = true) \/ (exists f k b, m = AClear f /\ In (k, b) c /\ dp b = true)) /\
  (pc_poisoned st' = true -> m' = AFail (Panics PUser) /\ pc_map st' = c).
Proof.
  intros P Q cp dp A m c m' st' lg.
  assert (D : snd (drop_loop dp (map snd c)) = true <-> exists k b, In (k, b) c /\ dp b = true).
  { clear. induction c as [|[k b] c IH]; cbn; [split; [discriminate|intros (? & ? & [] & _)]|]. destruct (dp b) eqn:E; cbn.
    - split; [|reflexivity]. eauto.
    - rewrite IH. split; [intros (k' & b' & H & H'); eauto|]. intros (k' & b' & [H|H] & H'); [congruence|eauto]. }
  destruct m as [a|o|k f|k b f|f]; cbn; try discriminate.
  - intros E. assert (pc_poisoned st' = false) as -> by (destruct (hget key_eqb c k) as [b|]; [destruct (cp b)|]; injection E as <- <- <-; reflexivity).
    split; [|discriminate]. split; [discriminate|]. intros [(? & ? & ? & H & _)|(? & ? & ? & H & _)]; discriminate H.
  - destruct (cp b) eqn:C; intros E; injection E as <- <- <-; cbn; (split; [|try discriminate; auto]).
    + split; [|reflexivity]. intros _. left. eauto.
    + split; [discriminate|]. intros [(k' & b' & f' & H & H')|(? & ? & ? & H & _)]; [|discriminate H]. injection H as _ <- _. congruence.
  - destruct (snd (drop_loop dp (map snd c))) eqn:X; intros E; injection E as <- <- <-; cbn; (split; [|try discriminate; auto]).
    + split; [|reflexivity]. intros _. right. destruct (proj1 D eq_refl) as (k & b & H1 & H2). eauto 6.
    + split; [discriminate|]. intros [(k' & b' & f' & H & H')|(? & k' & b' & H & H' & H'')]; [discriminate H|]. assert (false = true) by (apply D; eauto). discriminate.
Qed.
