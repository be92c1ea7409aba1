(** What the table of default values is meant to be: a partial function from stats to values. *)
From Coq Require Import ZArith List.
From Verif Require Import M_Outcome M_Value M_Stat M_Defaults S_StatMap.
Import ListNotations.

Section S.
  Context {P : Prog}.
  Notation VS s := (VT P (vt_value P (si_ty s))).
  Definition dmap : Type := forall s : inst P, option (val (VS s)).
  Definition no_defaults : dmap := fun _ => None.
  Definition dbinds (sp sp' : dmap) (s : inst P) (v : val (VS s)) : Prop :=
    sp' s = Some v /\ forall s', s' <> s -> sp' s' = sp s'.
  (** [insert] sets; [patch] modifies the registered value, or the type's default. *)
  Definition dspec_step (sp : dmap) (c : dcall P) (sp' : dmap) : Prop :=
    match c with
    | DInsert s v => dbinds sp sp' s v
    | DPatch s op => exists v', write_to op (or_default s (sp s)) = Done v' /\ dbinds sp sp' s v'
    end.
  Inductive dspec_run : dmap -> list (dcall P) -> dmap -> Prop :=
  | dspec_nil : forall sp, dspec_run sp [] sp
  | dspec_cons : forall sp c sp1 l sp2, dspec_step sp c sp1 -> dspec_run sp1 l sp2 -> dspec_run sp (c :: l) sp2.

  Definition call_stat (c : dcall P) : inst P := match c with DInsert s _ => s | DPatch s _ => s end.
  Definition is_insert (c : dcall P) : Prop := match c with DInsert _ _ => True | DPatch _ _ => False end.
  (** Every patch comes after an insertion of the same stat. *)
  Definition inserted_first (l : list (dcall P)) : Prop :=
    forall l1 s op l2, l = l1 ++ DPatch s op :: l2 -> exists c, In c l1 /\ is_insert c /\ call_stat c = s.
  (** The caller's types fit and operations return. *)
  Definition total_call (c : dcall P) : Prop :=
    match c with
    | DInsert s _ => fits s
    | DPatch s op => forall v, exists v', write_to op v = Done v'
    end.
  Definition sound_call (c : dcall P) : Prop :=
    match c with DInsert _ _ => True | DPatch s op => forall v, write_to op v <> UB end.
  (** The values handed over by insertions. *)
  Definition inserted (l : list (dcall P)) : list (dbuf P) :=
    flat_map (fun c => match c with DInsert s v => [DVal (Buf (vt_value P (si_ty s)) v)] | DPatch _ _ => [] end) l.
End S.
Arguments dmap P : clear implicits.
