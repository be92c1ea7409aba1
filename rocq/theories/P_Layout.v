(** C25, C26: the erased buffer and which value types fit it. *)
From Coq Require Import ZArith List Bool Lia.
From Verif Require Import M_Outcome M_Ints M_Stat M_Layout S_Layout L_LayoutProofs.
Import ListNotations.
Local Open Scope Z_scope.

(** ** C25 *)
Theorem C25_validate_exact :
  forall l : layout, validate (l_size l) (l_align l) = Done tt <-> storable l.
Proof. exact C25_validate_exact_proof. Qed.
Print Assumptions C25_validate_exact.
Theorem C25_others_panic_before_access :
  forall (A : Type) (r : repr A) (v : A) (f : A -> A) (p : Z) (b : list byte),
  ~ storable (r_lay r) ->
  exists why, raw_from r p v = Panics why /\ raw_read r p b = Panics why /\ raw_mut r p b f = Panics why.
Proof. exact C25_others_panic_before_access_proof. Qed.
Print Assumptions C25_others_panic_before_access.
Example C25_rejected_case : ~ storable (Lay 32 8) /\ ~ storable (Lay 16 16) /\ ~ storable (Lay 48 3).
Proof. unfold storable. cbn. lia. Qed.

(** A buffer holding a storable value behaves like a variable of that type, wherever it is moved. *)
Theorem C25_buffer_is_a_variable :
  forall (A : Type) (r : repr A) (v : A) (local p : Z) (l : list (bstep A)),
  lawful_repr r -> storable (r_lay r) ->
  local mod l_align (r_lay r) = 0 -> p mod 8 = 0 -> aligned_moves l ->
  exists b p' b',
    raw_from r local v = Done b /\
    raw_run r p b l = Done (p', b', snd (var_run v l)) /\
    raw_read r p' b' = Done (fst (var_run v l)).
Proof. exact C25_buffer_is_a_variable_proof. Qed.
Print Assumptions C25_buffer_is_a_variable.
Example C25_case :
  lawful_repr C25_pair /\ storable (r_lay C25_pair) /\
  (let! b := raw_from C25_pair 6 (1, 2) in
   raw_run C25_pair 64 b [BRead; BWrite (fun v => (snd v, 9)); BMove 128; BRead]) =
  Done (128, [Some 2; None; Some 9; None] ++ repeat None 20, [(1, 2); (2, 9)]).
Proof.
  split; [|split; [unfold storable; cbn; lia|reflexivity]].
  unfold lawful_repr. cbn. split; [lia|]. split; [reflexivity|]. intros []; reflexivity.
Qed.

(** The side condition on [local] is needed: the array [Buffer::from] writes into is only
    byte aligned, so the write is undefined behaviour unless it happens to be placed well. *)
Theorem C25_from_undefined_exactly :
  forall (A : Type) (r : repr A) (v : A) (local : Z),
  raw_from r local v = UB <-> storable (r_lay r) /\ local mod l_align (r_lay r) <> 0.
Proof. exact C25_from_undefined_exactly_proof. Qed.
Print Assumptions C25_from_undefined_exactly.
Theorem C25_from_in_bounds_and_aligned_refuted :
  exists (A : Type) (r : repr A) (v : A) (local : Z),
  lawful_repr r /\ storable (r_lay r) /\ raw_from r local v = UB.
Proof. exact C25_from_in_bounds_and_aligned_refuted_proof. Qed.
Print Assumptions C25_from_in_bounds_and_aligned_refuted.

(** ** C26: exactly which parameters each provided type can be stored with *)
(** The layout of a struct is the one there is: aligned as its most aligned field or as forced,
    its fields in order at the first place they fit, its size the next multiple of its alignment. *)
Theorem C26_struct :
  forall (forced : Z) (fs : list layout), 0 < forced -> Forall sane fs ->
  struct_of forced fs (c_struct forced fs).
Proof. exact C26_struct_proof. Qed.
Print Assumptions C26_struct.
Theorem C26_struct_unique :
  forall (forced : Z) (fs : list layout) (l l' : layout),
  struct_of forced fs l -> struct_of forced fs l' -> l = l'.
Proof. exact C26_struct_unique_proof. Qed.
Print Assumptions C26_struct_unique.
Example C26_struct_case :
  Forall sane [Lay 2 2; Lay 8 4; Lay 0 1; Lay 3 1] /\
  c_struct 1 [Lay 2 2; Lay 8 4; Lay 0 1; Lay 3 1] = Lay 16 4 /\
  packed 0 [Lay 2 2; Lay 8 4; Lay 0 1; Lay 3 1] 15.
Proof.
  split; [unfold sane; repeat constructor; cbn; lia|]. split; [reflexivity|].
  apply (packed_cons 0 (Lay 2 2) _ 0); [cbn; lia|exists 0; reflexivity|].
  apply (packed_cons _ (Lay 8 4) _ 4); [cbn; lia|exists 1; reflexivity|].
  apply (packed_cons _ (Lay 0 1) _ 12); [cbn; lia|exists 12; reflexivity|].
  apply (packed_cons _ (Lay 3 1) _ 12); [cbn; lia|exists 12; reflexivity|]. constructor.
Qed.

Theorem C26_StatInt :
  forall a128 t, a128 = 8 \/ a128 = 16 ->
  (storable (lay_StatInt (lay_int a128 t)) <-> bits t <= 32) /\
  (storable (lay_StatIntPercentAdditive (lay_int a128 t)) <-> bits t <= 32) /\
  (storable (lay_StatIntPercent (lay_int a128 t) (lay_int a128 t)) <-> bits t <= 32) /\
  (storable (lay_StatIntFraction (lay_int a128 t) (lay_int a128 t)) <-> bits t <= 32) /\
  (storable (lay_StatIntFloatMul (lay_int a128 t) lay_f32) <-> bits t <= 32) /\
  (storable (lay_StatIntFloatMul (lay_int a128 t) lay_f64) <-> bits t <= 32) /\
  (storable (lay_StatFlags (lay_int a128 t)) <-> bits t <= 64).
Proof. exact C26_StatInt_proof. Qed.
Print Assumptions C26_StatInt.
Theorem C26_StatFloat :
  forall a128 t, a128 = 8 \/ a128 = 16 ->
  storable (lay_StatFloat lay_f32) /\ ~ storable (lay_StatFloat lay_f64) /\
  storable (lay_StatMult lay_f32) /\ storable (lay_StatMult lay_f64) /\
  (storable (lay_StatFloat (lay_ratio (lay_int a128 t))) <-> bits t <= 16) /\
  (storable (lay_StatMult (lay_ratio (lay_int a128 t))) <-> bits t <= 32).
Proof. exact C26_StatFloat_proof. Qed.
Print Assumptions C26_StatFloat.
(** Containers of a user type [l] of a storable alignment. *)
Theorem C26_containers :
  forall l : layout, 0 <= l_size l ->
  l_align l = 1 \/ l_align l = 2 \/ l_align l = 4 \/ l_align l = 8 ->
  storable lay_StatExists /\
  (storable (lay_StatOnce l) <-> l_size l <= if l_align l =? 8 then 16 else 20) /\
  (storable (lay_Prioritized l) <-> l_size l <= 20).
Proof. exact C26_containers_proof. Qed.
Print Assumptions C26_containers.
Theorem C26_every_parameter_refuted :
  exists t, ~ storable (lay_StatInt (lay_int 16 t)) /\ ~ storable (lay_StatIntPercent (lay_int 16 t) (lay_int 16 t)) /\
  ~ storable (lay_StatFloat lay_f64).
Proof. exact C26_every_parameter_refuted_proof. Qed.
Print Assumptions C26_every_parameter_refuted.
Example C26_case :
  lay_StatInt (lay_int 16 I32) = Lay 16 8 /\ lay_StatIntPercent (lay_int 16 I32) (lay_int 16 I32) = Lay 24 8 /\
  lay_StatIntFloatMul (lay_int 16 I32) lay_f64 = Lay 24 8 /\ lay_StatInt (lay_int 16 I64) = Lay 32 8 /\
  lay_StatOnce (Lay 24 8) = Lay 32 8 /\ lay_Prioritized (Lay 2 1) = Lay 8 4.
Proof. vm_compute. repeat split. Qed.
