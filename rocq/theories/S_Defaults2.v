(** Histories of default registrations, read per stat. *)
From Coq Require Import ZArith List.
From Verif Require Import M_Outcome M_Value M_Stat M_Defaults S_StatMap S_Defaults.
Import ListNotations.

Section S.
  Context {P : Prog}.
  Notation VS s := (VT P (vt_value P (si_ty s))).
  (** [s] was given a bound, but never a value. *)
  Definition orphaned (l : list (dcall P)) (s : inst P) : Prop :=
    (exists op, In (DPatch s op) l) /\ forall v, ~ In (DInsert s v) l.
  (** A value after the patches of its stat among later calls; other stats do not matter. *)
  Inductive patched (s : inst P) : list (dcall P) -> val (VS s) -> val (VS s) -> Prop :=
  | patched_end : forall v, patched s [] v v
  | patched_other : forall c l v v', call_stat c <> s -> patched s l v v' -> patched s (c :: l) v v'
  | patched_mine : forall op l v v1 v', write_to op v = Done v1 -> patched s l v1 v' -> patched s (DPatch s op :: l) v v'.
  (** The caller's types fit, values and operations alike, and operations return. *)
  Definition fit_call (o_size o_align : vty P -> Z) (c : dcall P) : Prop :=
    fits (call_stat c) /\ total_call c /\ validate (o_size (vt_value P (si_ty (call_stat c)))) (o_align (vt_value P (si_ty (call_stat c)))) = Done tt.
End S.
