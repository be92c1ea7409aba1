(** What a world is meant to be after calls some of which panicked. *)
From Coq Require Import ZArith List Bool String.
From Verif Require Import M_Outcome M_Value M_Types M_Qualifier M_Search M_Stat M_StatMap M_Unwind M_HashMap M_Pair M_Defaults M_Registry M_Querier M_World M_WorldUnwind
  S_StatMap S_Defaults S_Querier S_Registry S_Demo S_DemoDefaults S_DemoQuery S_World.
Import ListNotations.

Section S.
  Context {P : Prog} {Q : QFlag}.
  (** The default of a stat after a call: an insertion sets it if the type fits, a patch that
      returns modifies it, one that panics leaves what it left; nothing else changes. *)
  Definition dcaught (sp : dmap P) (c : dcall P * residue P) (sp' : dmap P) : Prop :=
    match fst c with
    | DInsert s v => (fits s /\ dbinds sp sp' s v) \/ (~ fits s /\ forall s', sp' s' = sp s')
    | DPatch s op => exists v, sp s = Some v /\
        ((exists v', write_to op v = Done v' /\ dbinds sp sp' s v') \/ ((exists p, write_to op v = Panics p) /\ dbinds sp sp' s (snd c s)))
    end.
  Inductive dcaught_run : dmap P -> list (dcall P * residue P) -> dmap P -> Prop :=
  | dcaught_nil : forall sp, dcaught_run sp [] sp
  | dcaught_cons : forall sp c sp1 l sp2, dcaught sp c sp1 -> dcaught_run sp1 l sp2 -> dcaught_run sp (c :: l) sp2.
  (** Every patch comes after an insertion of the same stat, of a type that fits. *)
  Definition backed (l : list (dcall P)) : Prop :=
    forall l1 s op l2, l = l1 ++ DPatch s op :: l2 -> fits s /\ exists c, In c l1 /\ is_insert c /\ call_stat c = s.

  Definition caught_defaults (l : list (wop P Q * residue P)) : list (dcall P * residue P) :=
    flat_map (fun c => map (fun d => (d, snd c)) (default_calls [fst c])) l.
  (** The caller's own operations and pairs are in order. *)
  Definition decent (o : wop P Q) : Prop :=
    match o with
    | WMin s x => forall v, write_to (S := VT P (vt_value P (si_ty s))) (OMin x) v <> UB
    | WMax s x => forall v, write_to (S := VT P (vt_value P (si_ty s))) (OMax x) v <> UB
    | WSeed _ _ p => b_ty (p_buf p) = vt_value P (si_ty (p_stat p)) /\ fits (p_stat p)
    | _ => True
    end.
End S.

(** Calls for the examples, all panics caught. *)
Local Open Scope Z_scope.
Definition left7 : residue demo := fun s => match vt_value demo (si_ty s) as t return val (VT demo t) with VNum => num 7 | VBool => false end.
Definition w_caught (l : list dop_w) : outcome (resources demo intQ) := c_run demoN (fun _ => 24) (fun _ => 8) no_resources (map (fun o => (o, left7)) l).
Definition c_see (sc : scene demo intQ) (l : list dop_w) (e : entity) : outcome (option (quad Z Z)) :=
  let! r := w_caught l in fst (w_query r sc 3 (p_query e any hp)).
Definition c_sizes (l : list dop_w) : outcome (option nat * option nat * option nat * option nat) :=
  let! r := w_caught l in
  Done (option_map (@List.length _) (r_names r), option_map (@List.length _) (r_defaults r),
        option_map (@List.length _) (r_relations r), option_map (@List.length _) (r_cache r)).
(** A system that asks for hp and panics. *)
Definition w_ask_panic (e : entity) : dop_w := @WQuery demo intQ demo_scene 3 (pbind (ask_hp e any) (fun _ => Stop (Panics PUser))).
(** How a history without catching ends; what a name stands for after one with. *)
Definition w_ends (l : list dop_w) : outcome unit := let! _ := w_demo l in Done tt.
Definition c_name (l : list dop_w) (n : string) : outcome (option (demo_s * Z)) :=
  let! r := w_caught l in Done (demo_get (content (r_names r)) n).
