(** When the cache is poisoned, under any behaviour of the flags' functions. *)
From Coq Require Import ZArith List Bool.
From Verif Require Import M_Outcome M_Value M_Qualifier M_Stat M_HashMap M_Pair M_Defaults M_Querier M_Poison M_AnyEq.
Import ListNotations.

Lemma found_slot {P : Prog} {Q : QFlag} (w : whim Q) (c : cache P Q) k l : forall i n, any_find w i c k l = Some (Some n) -> exists kb, nth_error c n = Some kb.
Proof.
  induction l as [|n0 l IH]; intros i n; cbn; [discriminate|]. destruct (nth_error c n0) as [[k' b]|] eqn:E; [|apply IH].
  destruct (any_entry_eq w i k k') as [[[]|] i']; [|apply IH|discriminate]. intros H. injection H as <-. eauto.
Qed.
Lemma slot_set {P : Prog} {Q : QFlag} (c : cache P Q) b : forall n kb, nth_error c n = Some kb -> In (fst kb, b) (set_slot c n b).
Proof.
  induction c as [|[k' b'] c IH]; intros [|n] kb; cbn; try discriminate.
  - intros H. injection H as <-. left. reflexivity.
  - intros H. right. apply IH, H.
Qed.
Lemma drops_all {P : Prog} (dp : buffer P -> bool) l : snd (drop_loop dp l) = false <-> forall b, In b l -> dp b = false.
Proof.
  induction l as [|b l IH]; cbn; [split; [intros _ b []|reflexivity]|]. destruct (dp b) eqn:E; cbn.
  - split; [discriminate|]. intros H. rewrite (H b (or_introl eq_refl)) in E. discriminate.
  - rewrite IH. split; intros H; [intros b' [<-|Hi]; auto|intros b' Hi; apply H; right; exact Hi].
Qed.

Lemma C68_poison_proof : forall (P : Prog) (Q : QFlag) (cp dp : buffer P -> bool) (w : whim Q) (A : Type) (m : act P Q A) st m' st' lg,
  whim_step cp dp w m st = Some (m', st', lg) ->
  (pc_poisoned st = true -> st' = st /\ lg = no_log /\ exists p, m' = AFail (Panics p)) /\
  match m with
  | AGet k f => st' = st /\ lg = no_log
  | APut k b f => pc_poisoned st = false ->
      (m' = f /\ pc_poisoned st' = false /\ l_placed lg = [b] /\ exists k', In (k', b) (pc_map st')) \/
      (m' = AFail (Panics PUser) /\ st' = st /\ lg = no_log /\ w_clone w (key_query k) = None) \/
      (m' = AFail (Panics PUser) /\ pc_poisoned st' = true)
  | AClear f => pc_poisoned st = false ->
      (m' = f /\ st' = PCache [] false /\ l_dropped lg = map snd (pc_map st) /\ (forall b, In b (map snd (pc_map st)) -> dp b = false)) \/
      (m' = AFail (Panics PUser) /\ pc_poisoned st' = true)
  | _ => False
  end.
Proof.
  intros P Q cp dp w A m [c po] m' st' lg. destruct m as [a|o|k f|k b f|f]; cbn; try discriminate; destruct po; cbn.
  - intros E. injection E as <- <- <-. split; [intros _; split; [reflexivity|split; [reflexivity|eauto]]|auto].
  - intros E. split; [discriminate|]. destruct (w_clone w _) as [x|]; [|injection E as <- <- <-; auto].
    destruct (w_slots w) as [l|]; [|injection E as <- <- <-; auto]. destruct (any_find w 0 c _ l) as [o|]; [|injection E as <- <- <-; auto].
    destruct (_ || _); injection E as <- <- <-; auto.
  - intros E. split; [intros _|discriminate]. destruct (w_clone w _) as [x|]; injection E as <- <- <-; split; try reflexivity; split; try reflexivity; eauto.
  - intros E. split; [discriminate|intros _]. destruct (w_clone w _) as [x|]; [|injection E as <- <- <-; right; left; auto].
    destruct (cp b); [injection E as <- <- <-; right; right; auto|]. destruct (w_slots w) as [l|]; [|injection E as <- <- <-; right; right; auto].
    destruct (w_rehash w) as [r|]; [injection E as <- <- <-; right; right; auto|].
    destruct (any_find w 0 c _ l) as [[n|]|] eqn:F; [| |injection E as <- <- <-; right; right; auto].
    + destruct (w_drop w); injection E as <- <- <-; [right; right; auto|left]. split; [reflexivity|]. split; [reflexivity|]. split; [reflexivity|].
      destruct (found_slot _ _ _ _ _ _ F) as (kb & Hk). exists (fst kb). apply slot_set, Hk.
    + injection E as <- <- <-. left. split; [reflexivity|]. split; [reflexivity|]. split; [reflexivity|]. eexists. apply in_or_app. right. left. reflexivity.
  - intros E. injection E as <- <- <-. split; [intros _; split; [reflexivity|split; [reflexivity|eauto]]|discriminate].
  - intros E. split; [discriminate|intros _]. destruct (snd (drop_loop dp (map snd c))) eqn:D; [injection E as <- <- <-; right; auto|].
    destruct (w_drop w); injection E as <- <- <-; [right; auto|left]. split; [reflexivity|]. split; [reflexivity|]. split; [|apply drops_all, D].
    clear - D. induction (map snd c) as [|b l IH]; cbn in *; [reflexivity|]. destruct (dp b); cbn in *; [discriminate|]. f_equal. apply IH, D.
Qed.
