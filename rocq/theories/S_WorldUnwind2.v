(** What the table of defaults is meant to be after any calls, with or without panics, and without
    asking that patches follow insertions. *)
From Coq Require Import ZArith List Bool.
From Verif Require Import M_Outcome M_Value M_Types M_Qualifier M_Search M_Stat M_StatMap M_Unwind M_HashMap M_Pair M_Defaults M_Registry M_Querier M_World M_WorldUnwind
  S_StatMap S_Defaults S_Querier S_Demo S_DemoDefaults S_DemoQuery S_World S_WorldUnwind.
Import ListNotations.

Section S.
  Context {P : Prog} {Q : QFlag} (o_size o_align : vty P -> Z).
  Notation VS s := (VT P (vt_value P (si_ty s))).
  (** Nothing was stored for a stat; a value; or the operation of a patch, where a value belongs. *)
  Inductive slot (s : inst P) : Type := Untouched | Holds (v : val (VS s)) | Misused.
  Arguments Untouched {s}.
  Arguments Holds {s}.
  Arguments Misused {s}.
  Definition slots : Type := forall s, slot s.
  Definition sets (sp sp' : slots) (s : inst P) (x : slot s) : Prop := sp' s = x /\ forall s', s' <> s -> sp' s' = sp s'.
  Definition op_fits (s : inst P) : Prop := validate (o_size (vt_value P (si_ty s))) (o_align (vt_value P (si_ty s))) = Done tt.
  (** One call, its panic (if any) caught. *)
  Definition slot_step (sp : slots) (c : dcall P * residue P) (sp' : slots) : Prop :=
    match fst c with
    | DInsert s v => (fits s /\ sets sp sp' s (Holds v)) \/ (~ fits s /\ forall s', sp' s' = sp s')
    | DPatch s op =>
        match sp s with
        | Untouched =>
            ((exists v', write_to op (sv_default (VS s)) = Done v') /\ op_fits s /\ sets sp sp' s Misused) \/
            (((exists p, write_to op (sv_default (VS s)) = Panics p) \/ ~ op_fits s) /\ forall s', sp' s' = sp s')
        | Holds v => (exists v', write_to op v = Done v' /\ sets sp sp' s (Holds v')) \/ ((exists p, write_to op v = Panics p) /\ sets sp sp' s (Holds (snd c s)))
        | Misused => ~ fits s /\ forall s', sp' s' = sp s'
        end
    end.
  Inductive slot_run : slots -> list (dcall P * residue P) -> slots -> Prop :=
  | slot_nil : forall sp, slot_run sp [] sp
  | slot_cons : forall sp c sp1 l sp2, slot_step sp c sp1 -> slot_run sp1 l sp2 -> slot_run sp (c :: l) sp2.
  Definition untouched : slots := fun _ => Untouched.
  Definition read_slot (s : inst P) (x : slot s) : outcome (val (VS s)) :=
    match x with Untouched => Done (sv_default (VS s)) | Holds v => Done v | Misused => UB end.
End S.
Arguments slot P s : clear implicits.
Arguments slots P : clear implicits.
Arguments Untouched {P s}.
Arguments Holds {P s}.
Arguments Misused {P s}.

(** How a history with caught panics ends, and whether the table it leaves can be dropped. *)
Local Open Scope Z_scope.
Definition c_ends (l : list dop_w) : outcome unit := let! _ := w_caught l in Done tt.
Definition c_drops (l : list dop_w) : outcome nat := let! r := w_caught l in let! x := d_drop (content (r_defaults r)) in Done (List.length x).
