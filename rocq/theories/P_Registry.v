(** C37: registration of stat names. *)
From Coq Require Import ZArith List Bool String.
From Verif Require Import M_Outcome M_Value M_Stat M_HashMap M_Registry S_StatMap S_Demo S_Registry L_HashMap L_Demo L_Registry L_RegistryProofs.
Import ListNotations.
Local Open Scope Z_scope.

Theorem C37_register_resolves :
  forall (P : Prog) (N : StatNames P), distinct_vtables P ->
  forall (m m' : registry P) T, register N m T = (m', Done tt) ->
  (forall s n, si_ty s = T -> named N n s -> reg_get m' n = Some s) /\
  (forall n s, reg_get m n = Some s -> reg_get m' n = Some s) /\
  (forall n, (forall i, ~ In (n, i) (sn_values N T)) -> reg_get m' n = reg_get m n).
Proof. exact C37_register_resolves_proof. Qed.
Print Assumptions C37_register_resolves.

Theorem C37_register_again :
  forall (P : Prog) (N : StatNames P), distinct_vtables P ->
  forall (m m' : registry P) T, register N m T = (m', Done tt) -> register N m' T = (m', Done tt).
Proof. exact C37_register_again_proof. Qed.
Print Assumptions C37_register_again.

(** The call ends normally exactly if no name of [T] is bound to another stat before the call and
    [T] itself does not give one name to two values; otherwise it panics. *)
Theorem C37_register_panics_exactly :
  forall (P : Prog) (N : StatNames P), distinct_vtables P ->
  forall (m : registry P) T,
  (snd (register N m T) = Done tt <-> no_clash N (reg_get m) T /\ names_distinct N T) /\
  (snd (register N m T) = Done tt \/ snd (register N m T) = Panics PDuplicate).
Proof. exact C37_register_panics_exactly_proof. Qed.
Print Assumptions C37_register_panics_exactly.

Theorem C37_register_panics_on_clash :
  forall (P : Prog) (N : StatNames P), distinct_vtables P ->
  forall (m : registry P) T, names_distinct N T ->
  (snd (register N m T) = Panics PDuplicate <->
   exists n i s, In (n, i) (sn_values N T) /\ reg_get m n = Some s /\ s <> Inst T i).
Proof. exact C37_register_panics_on_clash_proof. Qed.
Print Assumptions C37_register_panics_on_clash.

(** "Some name is already bound" before the call is not the only reason: two values of the same
    type with one name clash with each other, on an empty registry. *)
Theorem C37_register_panics_only_on_earlier_refuted :
  exists (P : Prog) (N : StatNames P) T, distinct_vtables P /\ snd (register N [] T) = Panics PDuplicate.
Proof. exact C37_register_panics_only_on_earlier_refuted_proof. Qed.
Print Assumptions C37_register_panics_only_on_earlier_refuted.

(** A panicking registration keeps every earlier binding and adds only names of [T]. *)
Theorem C37_register_panic_state :
  forall (P : Prog) (N : StatNames P), distinct_vtables P ->
  forall (m : registry P) T n s,
  (reg_get m n = Some s -> reg_get (fst (register N m T)) n = Some s) /\
  (reg_get (fst (register N m T)) n = Some s -> reg_get m n = Some s \/ si_ty s = T /\ named N n s).
Proof. exact C37_register_panic_state_proof. Qed.
Print Assumptions C37_register_panic_state.

Theorem C37_replace_binds :
  forall (P : Prog) (N : StatNames P) (m : registry P) T,
  (forall n i, In (n, i) (sn_values N T) ->
     exists s, reg_get (register_replace N m T) n = Some s /\ si_ty s = T /\ named N n s) /\
  (names_distinct N T ->
     forall n i, In (n, i) (sn_values N T) -> reg_get (register_replace N m T) n = Some (Inst T i)) /\
  (forall n, (forall i, ~ In (n, i) (sn_values N T)) -> reg_get (register_replace N m T) n = reg_get m n).
Proof. exact C37_replace_binds_proof. Qed.
Print Assumptions C37_replace_binds.

(** Whatever the history, panics included, a name resolves only to a stat of that name whose type
    was registered. *)
Theorem C37_history_sound :
  forall (P : Prog) (N : StatNames P), distinct_vtables P ->
  forall (l : list (rop P)) n s, reg_get (rops_run N l) n = Some s ->
  named N n s /\ exists o, In o l /\ called o = si_ty s.
Proof. exact C37_history_sound_proof. Qed.
Print Assumptions C37_history_sound.

(** A successful registration stays in force until a replacement of the same name. *)
Theorem C37_history_resolves :
  forall (P : Prog) (N : StatNames P), distinct_vtables P ->
  forall (l1 l2 : list (rop P)) T n i,
  snd (register N (rops_run N l1) T) = Done tt -> In (n, i) (sn_values N T) ->
  (forall U j, In (RReplace U) l2 -> ~ In (n, j) (sn_values N U)) ->
  reg_get (rops_run N (l1 ++ RRegister T :: l2)) n = Some (Inst T i).
Proof. exact C37_history_resolves_proof. Qed.
Print Assumptions C37_history_resolves.

(** Registering [Hp], then [Atk] (whose second value is also called "Hp": the call panics after
    binding "Atk"), then replacing by [Atk]. *)
Example C37_case :
  snd (register demoN [] Hp) = Done tt /\
  let m := rops_run demoN [@RRegister demo Hp] in
  demo_get m "MaxHp" = Some (Hp, 1) /\ snd (register demoN m Hp) = Done tt /\
  snd (register demoN m Atk) = Panics PDuplicate /\
  let m1 := fst (register demoN m Atk) in
  demo_get m1 "Atk" = Some (Atk, 0) /\ demo_get m1 "Hp" = Some (Hp, 0) /\ demo_get m1 "Def" = None /\
  let m2 := register_replace demoN m1 Atk in
  demo_get m2 "Hp" = Some (Atk, 1) /\ demo_get m2 "Def" = Some (Atk, 2) /\ demo_get m2 "MaxHp" = Some (Hp, 1).
Proof. repeat split; reflexivity. Qed.
(** The hypotheses: [Hp] has no repeated name and does not clash with the empty registry. *)
Example C37_hypotheses : names_distinct demoN Hp /\ no_clash demoN (reg_get []) Hp /\ ~ names_distinct demoN Alive.
Proof.
  split; [|split].
  - intros n i j [A|[A|[]]] [B|[B|[]]]; congruence.
  - intros n i s _ H. discriminate H.
  - intros H. specialize (H "Alive"%string 0 1 (or_introl eq_refl) (or_intror (or_introl eq_refl))). discriminate H.
Qed.
