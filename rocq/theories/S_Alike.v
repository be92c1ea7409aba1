(** Tables at one address belong to stats with one value type; nothing else is asked of addresses
    (the compiler may merge equal statics, and a type may have several tables). *)
From Coq Require Import ZArith List Bool.
From Verif Require Import M_Outcome M_Value M_Types M_Qualifier M_Search M_Stat M_StatMap M_HashMap M_Pair M_Defaults M_Querier M_Poison M_AnyEq M_VTable
  S_StatMap S_Defaults S_Querier S_Demo S_DemoDefaults S_AnyEq S_VTable.
Import ListNotations.
Local Open Scope Z_scope.

Definition like_tables (P : Prog) : Prop := forall a b, vt_addr P a = vt_addr P b -> vt_value P a = vt_value P b.
(** Two stats the comparison of [StatInst]s (src/stat.rs:137-149) cannot tell apart. *)
Definition alike {P : Prog} (a b : inst P) : Prop := si_index a = si_index b /\ vt_addr P (si_ty a) = vt_addr P (si_ty b).
(** Every patch comes after an insertion for a stat that compares equal. *)
Definition alike_first {P : Prog} (l : list (dcall P)) : Prop :=
  forall l1 s op l2, l = l1 ++ DPatch s op :: l2 -> exists c, In c l1 /\ is_insert c /\ alike (call_stat c) s.

(** Defaults and a cache in a program with the merged tables of [Named 0] and [Named 1]. *)
Definition mdefault (a : nat) (x : Z) : dcall (prog_of merged) := @DInsert (prog_of merged) (@Inst (prog_of merged) (Named a, 0%nat) 0) (num x).
Definition mraise (a : nat) (x : Z) : dcall (prog_of merged) := @DPatch (prog_of merged) (@Inst (prog_of merged) (Named a, 0%nat) 0) (@OMin (VT demo VNum) x).
Definition mdefaults (l : list (dcall (prog_of merged))) : defaults (prog_of merged) :=
  match d_run (P := prog_of merged) op_size op_align [] l with Done r => fst r | _ => [] end.
Definition mget (d : defaults (prog_of merged)) (a : nat) : outcome (quad Z Z) := @d_get (prog_of merged) d (@Inst (prog_of merged) (Named a, 0%nat) 0).
Definition mworld (d : defaults (prog_of merged)) : world (prog_of merged) intQ := {|
  w_defaults := Some d; w_relations := None; w_entities := fun e => if Nat.eqb e 0 then Some None else None; w_placeholder := 7%nat |}.
Definition mjoined (d : defaults (prog_of merged)) : joined (prog_of merged) intQ :=
  {| j_world := mworld d; j_cached := true; j_comp := QUnit; j_child := QUnit; j_rel := QUnit |}.
Definition mask (a : nat) : prog (prog_of merged) intQ (option (quad Z Z)) := @p_query (prog_of merged) intQ 0%nat (@Aggregate intQ 0) (@Inst (prog_of merged) (Named a, 0%nat) 0).
(** Asking for [Named a] and then for [Named b], the cache kept and behaving. *)
Definition msee (d1 d2 : defaults (prog_of merged)) (a b : nat) : outcome (option (quad Z Z)) * outcome (option (quad Z Z)) :=
  match any_go (P := prog_of merged) (fun _ => false) (fun _ => false) (List.repeat fair 9) (client (mjoined d1) 3 (mask a)) (PCache [] false) with
  | Some (o1, st) =>
      match any_go (P := prog_of merged) (fun _ => false) (fun _ => false) (List.repeat fair 9) (client (mjoined d2) 3 (mask b)) st with
      | Some (o2, _) => (o1, o2)
      | None => (o1, NoFuel)
      end
  | None => (NoFuel, NoFuel)
  end.
