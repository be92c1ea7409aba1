(** A concrete program for the examples: three stats of two value types, integer flags. *)
From Coq Require Import ZArith List Bool.
From Verif Require Import M_Outcome M_Ints M_Value M_Types M_Qualifier M_Search M_Stat M_StatMap M_Pair.
Import ListNotations.
Local Open Scope Z_scope.

Inductive demo_v : Type := VNum | VBool.
Inductive demo_s : Type := Hp | Atk | Alive.
Definition i32 : intp := {| i_ty := I32; i_flav := FPrim |}.
Definition demo : Prog := {|
  vty := demo_v;
  vty_dec := ltac:(decide equality);
  VT := fun t => match t with VNum => statInt true i32 | VBool => boolV end;
  v_size := fun t => match t with VNum => 16 | VBool => 1 end;
  v_align := fun t => match t with VNum => 8 | VBool => 1 end;
  sty := demo_s;
  sty_dec := ltac:(decide equality);
  vt_value := fun s => match s with Alive => VBool | _ => VNum end;
  vt_addr := fun s => match s with Hp => 4224 | Atk => 4096 | Alive => 4160 end
|}.
Definition hp : inst demo := @Inst demo Hp 0.
Definition atk : inst demo := @Inst demo Atk 0.
Definition alive : inst demo := @Inst demo Alive 0.
Definition num (x : Z) : quad Z Z := Quad x (-1000) 1000 1.
Definition none : qualifier intQ := qual_none intQ.
Definition fire : qualifier intQ := qual_all_of intQ 1.
Definition ice : qualifier intQ := qual_all_of intQ 2.

(** Histories from the empty map, and observations at plain types (so that they compute quickly). *)
Definition dop : Type := mop demo intQ.
Definition add_num (q : qualifier intQ) (x : Z) : dop := @MModify demo intQ q hp (@OAdd (VT demo VNum) x).
Definition put_hp (q : qualifier intQ) (x : Z) : dop := MInsert q hp (num x).
Definition put_atk (q : qualifier intQ) (x : Z) : dop := MInsert q atk (num x).
Definition put_alive (q : qualifier intQ) (b : bool) : dop := MInsertBase q alive b.
Definition extend_hp (l : list (qualifier intQ * Z * quad Z Z)) : dop := @MExtend demo intQ Hp l.
Definition extend_alive (l : list (qualifier intQ * Z * bool)) : dop := @MExtend demo intQ Alive l.
Definition each_hp (x : Z) : dop := @MIterMut demo intQ hp (fun _ v => sv_add (VT demo VNum) v x).
Definition demo_run (l : list dop) : map_t demo intQ :=
  match mops_run bs_new [] l with Done m => m | _ => [] end.
Definition runs (l : list dop) : bool := match mops_run bs_new [] l with Done _ => true | _ => false end.
Definition get_hp (m : map_t demo intQ) (q : qualifier intQ) : outcome (option (quad Z Z)) := m_get bs_new m q hp.
Definition get_atk (m : map_t demo intQ) (q : qualifier intQ) : outcome (option (quad Z Z)) := m_get bs_new m q atk.
Definition get_alive (m : map_t demo intQ) (q : qualifier intQ) : outcome (option bool) := m_get_evaled bs_new m q alive.
Definition eval_hp (m : map_t demo intQ) (x : qquery intQ) : outcome Z := m_eval bs_new m x hp.
Definition eval_alive (m : map_t demo intQ) (x : qquery intQ) : outcome bool := m_eval bs_new m x alive.
Definition iter_hp (m : map_t demo intQ) : outcome (list (Z * Z * Z)) :=
  let! l := m_iter bs_new m hp in Done (map (fun p => (any_of (fst p), all_of (fst p), addend (snd p))) l).
Definition iter_atk (m : map_t demo intQ) : outcome (list (Z * Z * Z)) :=
  let! l := m_iter bs_new m atk in Done (map (fun p => (any_of (fst p), all_of (fst p), addend (snd p))) l).
Definition iter_alive (m : map_t demo intQ) : outcome (list (Z * Z * bool)) :=
  let! l := m_iter bs_new m alive in Done (map (fun p => (any_of (fst p), all_of (fst p), snd p)) l).
Definition stream_hp (m : map_t demo intQ) (x : qquery intQ) (v : quad Z Z) : outcome (quad Z Z) :=
  let! p := map_stream bs_new m x (@Pair demo hp (@Buf demo VNum v)) in buf_into demo VNum (p_buf p).

(** Stat types of the demo program: enums of one byte, and an oversized variant of it. *)
Definition demoT : StatTypes demo := {|
  s_size := fun _ => 1; s_align := fun _ => 1;
  s_from_index := fun _ i => if (0 <=? i) && (i <? 4) then Done i else Panics PBadIndex
|}.
Definition demoBig : StatTypes demo := @Build_StatTypes demo (fun s : demo_s => match s with Atk => 32 | _ => 1 end) (fun _ => 1) (fun _ i => Done i).
Definition hp_pair (x : Z) : pair demo := @Pair demo hp (@Buf demo VNum (num x)).
Definition atk_pair (x : Z) : pair demo := @Pair demo atk (@Buf demo VNum (num x)).
Definition pair_num (p : pair demo) : outcome (quad Z Z) := buf_into demo VNum (p_buf p).
(** A [match_stat!] with three arms. *)
Definition demo_arms : list (arm demo nat) := [
  @AIs demo nat alive (fun _ => Done (true, 1%nat));
  @ABind demo nat Atk (fun i v => let! w := sv_add (VT demo VNum) v (10 + i) in Done (w, 2%nat));
  @AIs demo nat hp (fun v => let! w := sv_add (VT demo VNum) v 5 in Done (w, 3%nat));
  @ABind demo nat Hp (fun _ v => Done (v, 4%nat))].
