(** The assertions of the repository's own tests (/repo/tests), replayed on the model. These
    test the model; they are not proofs of properties. [tests/serde.rs] is in
    [S_RepoSerde]. *)
From Coq Require Import String ZArith List Bool.
From Coq Require Import SpecFloat.
From Flocq Require Import BinarySingleNaN.
From Verif Require Import M_Outcome M_Ints M_Float M_Value M_Types M_Qualifier M_Search M_Stat M_StatMap M_HashMap M_Pair M_Querier M_Derive.
Import ListNotations.
Local Open Scope Z_scope.

(** * tests/qualifier.rs *)
Module Qualifier.
  Definition Fire := 1. Definition Water := 2. Definition Earth := 4. Definition Air := 8.
  Definition Magic := 16. Definition Blast := 64.
  Definition o := Z.lor.
  Definition agg (f : Z) : qquery intQ := @Aggregate intQ f.
  Definition exact (any all : Z) : qquery intQ := @Exact intQ any all.
  Definition no : qquery intQ := query_none intQ.
  Definition none : qualifier intQ := qual_none intQ.
  Definition fire : qualifier intQ := qual_all_of intQ Fire.
  Definition fire_magic : qualifier intQ := qual_all_of intQ (o Fire Magic).
  Definition elements : Z := o (o (o Fire Water) Earth) Air.
  Definition elemental : qualifier intQ := qual_any_of intQ elements.
  Definition elemental_magic : qualifier intQ := @and_all_of intQ elemental Magic.
  Definition all_elements : qualifier intQ := qual_all_of intQ elements.
  Definition qs (x : qualifier intQ) (l : list (qquery intQ)) : list bool := map (qualifies_as x) l.

  (** 30-35 *)
  Example none_ok : qs none [no; agg Fire; agg (o Fire Water); agg (o Fire Magic); agg (o Water Magic)]
    = [true; true; true; true; true].
  Proof. vm_compute. reflexivity. Qed.
  (** 38-42 *)
  Example fire_ok : qs fire [no; agg Fire; agg (o Fire Water); agg (o Fire Magic); agg (o Water Magic)]
    = [false; true; true; true; false].
  Proof. vm_compute. reflexivity. Qed.
  (** 46-51 *)
  Example fire_magic_ok :
    qs fire_magic [no; agg Fire; agg (o Fire Water); agg (o Fire Magic); agg (o (o Fire Water) Magic); agg (o Water Magic)]
    = [false; false; false; true; true; false].
  Proof. vm_compute. reflexivity. Qed.
  (** 55-68 *)
  Example elemental_ok :
    qs elemental [no; agg Fire; agg Water; agg Earth; agg Air; agg (o Fire Water); agg (o Earth Air); agg elements;
                  agg Magic; agg (o Magic Blast); agg (o Fire Magic); agg (o (o Fire Air) Magic)]
    = [false; true; true; true; true; true; true; true; false; false; true; true].
  Proof. vm_compute. reflexivity. Qed.
  (** 72-89 *)
  Example elemental_magic_ok :
    qs elemental_magic [no; agg Fire; agg Water; agg Earth; agg Air; agg (o Fire Magic); agg (o Water Magic);
                        agg (o Earth Magic); agg (o Air Magic); agg (o Fire Water); agg (o Earth Air); agg elements;
                        agg Magic; agg (o Fire Magic); agg (o (o Fire Air) Magic)]
    = [false; false; false; false; false; true; true; true; true; false; false; false; false; true; true].
  Proof. vm_compute. reflexivity. Qed.
  (** 91-117 *)
  Example exact_ok :
    (map (fun x => qualifies_as x (exact 0 Fire)) [none; elemental; fire],
     map (fun x => qualifies_as x (exact elements 0)) [elemental; none; all_elements; fire; fire_magic])
    = ([false; false; true], [true; false; false; false; false]).
  Proof. vm_compute. reflexivity. Qed.

  (** [S] with value [StatIntPercentAdditive<i32>]: rounding [Truncate] and scale 100 by default. *)
  Definition prog : Prog := {|
    vty := unit; vty_dec := ltac:(decide equality);
    VT := fun _ => statPctAdd true {| i_ty := I32; i_flav := FPrim |} Truncate 100;
    v_size := fun _ => 16; v_align := fun _ => 4;
    sty := unit; sty_dec := ltac:(decide equality);
    vt_value := fun _ => tt; vt_addr := fun _ => 4096
  |}.
  Definition s : inst prog := @Inst prog tt 0.
  Definition evals (l : list (mop prog intQ)) (xs : list (qquery intQ)) : outcome (list Z) :=
    let! m := mops_run bs_new [] l in
    ofold (fun acc x => let! z := m_eval bs_new m x s in Done (acc ++ [z : Z])) [] xs.
  Definition base (q : qualifier intQ) (z : Z) : mop prog intQ := @MInsertBase prog intQ q s z.
  Definition modify (q : qualifier intQ) (op : stat_op (VT prog tt)) : mop prog intQ := @MModify prog intQ q s op.
  Definition three : list (qquery intQ) := [no; agg Fire; agg (o Fire Magic)].
  (** 119-128 *)
  Example map_ok : evals [base none 1; base fire 2; base fire_magic 4] three = Done [1; 3; 7].
  Proof. vm_compute. reflexivity. Qed.
  (** 130-140 *)
  Example modify_ok :
    evals [modify none (@OAdd (VT prog tt) 2); modify fire (@OMul (VT prog tt) 100); modify fire_magic (@OMax (VT prog tt) 2)] three
    = Done [2; 4; 2].
  Proof. vm_compute. reflexivity. Qed.
End Qualifier.

(** * tests/derive.rs *)
Module Derive.
  Local Open Scope string_scope.
  Definition v (n : string) : variant := Variant n None false.
  Definition d (n : string) (z : Z) : variant := Variant n (Some z) false.
  Definition stats : list variant := [v "A"; v "B"; v "C"; v "D"].
  Definition num_stats : list variant := [d "E" 2; d "F" 0; v "G"; d "H" 3].
  (** For every value: [from_index(as_index)] and the name; and the number of values. *)
  Definition observe (l : list variant) : option (list (outcome nat * string) * nat) :=
    option_map (fun ix =>
      (map (fun k => (d_from_index l ix (d_as_index ix k), d_name l k)) (d_values l), List.length (d_values l)))
      (indices true l).
  (** 31-34, 39, 41-44 *)
  Example stats_ok : observe stats
    = Some ([(Done 0%nat, "A"); (Done 1%nat, "B"); (Done 2%nat, "C"); (Done 3%nat, "D")], 4%nat).
  Proof. reflexivity. Qed.
  (** 35-38, 40, 45-48 *)
  Example num_stats_ok : observe num_stats
    = Some ([(Done 0%nat, "E"); (Done 1%nat, "F"); (Done 2%nat, "G"); (Done 3%nat, "H")], 4%nat).
  Proof. reflexivity. Qed.
  (** 49-50 *)
  Example unit_ok : (unit_from_index (unit_as_index tt), List.length unit_values) = (Done tt, 1%nat).
  Proof. reflexivity. Qed.
End Derive.

(** Components as finite tables. *)
Definition table {A} (l : list (entity * A)) : entity -> option A :=
  fun e => option_map snd (List.find (fun p : entity * A => Nat.eqb (fst p) e) l).

(** * tests/distance.rs *)
Module Distance.
  Inductive vt := VDist | VAlleg | VInt.
  Inductive st := StatDistance | StatAllegiance | StatEffects.
  Inductive rel := Ally | Enemy.
  Definition prog : Prog := {|
    vty := vt; vty_dec := ltac:(decide equality);
    VT := fun t => match t with VDist => statOnce Z | VAlleg => statOnce rel | VInt => statInt true {| i_ty := I32; i_flav := FPrim |} end;
    v_size := fun t => match t with VDist => 8 | VAlleg => 1 | VInt => 16 end;
    v_align := fun t => match t with VAlleg => 1 | _ => 4 end;
    sty := st; sty_dec := ltac:(decide equality);
    vt_value := fun s => match s with StatDistance => VDist | StatAllegiance => VAlleg | StatEffects => VInt end;
    vt_addr := fun s => match s with StatDistance => 4096 | StatAllegiance => 8192 | StatEffects => 12288 end
  |}.
  Definition types : StatTypes prog := @Build_StatTypes prog
    (fun s : st => match s with StatEffects => 1 | _ => 0 end) (fun _ => 1)
    (fun (s : st) i => match s with StatEffects => Done (if i =? 0 then 0 else 1) | _ => Done 0 end).
  Definition distance : inst prog := @Inst prog StatDistance 0.
  Definition allegiance : inst prog := @Inst prog StatAllegiance 0.
  Definition eff_distance : inst prog := @Inst prog StatEffects 0.
  Definition eff_allegiance : inst prog := @Inst prog StatEffects 1.
  Notation P := prog (only parsing).
  Definition pp := M_Querier.prog P boolQ (pair P).
  Definition query : Type := qquery boolQ.

  (** 71-73 with 75-88; [set] is [or] (src/types/singleton.rs:90-92). the provided methods of [ComponentStream] do nothing. *)
  Definition position (get : entity -> option (Z * Z)) : cstream P boolQ := {|
    c_item := Z * Z; c_get := get;
    c_stream := fun _ _ _ p => Ret p; c_attr := fun _ _ _ => Ret false;
    c_rel := fun this other _ p => of_outcome (
      let! o := pair_is_then_cast types p distance in
      match o with
      | Some v => let! v' := sv_or (VT P VDist) v (Z.abs (fst this - fst other) + Z.abs (snd this - snd other)) in
                  Done (pair_write p StatDistance v')
      | None => Done p
      end) |}.
  (** 109-130 *)
  Definition side (get : entity -> option bool) : cstream P boolQ := {|
    c_item := bool; c_get := get;
    c_stream := fun _ _ _ p => Ret p; c_attr := fun _ _ _ => Ret false;
    c_rel := fun this other _ p => of_outcome (
      let! o := pair_is_then_cast types p allegiance in
      match o with
      | Some v => let! v' := sv_or (VT P VAlleg) v (if Bool.eqb this other then Ally else Enemy) in
                  Done (pair_write p StatAllegiance v')
      | None => Done p
      end) |}.
  (** [query_relation(..).unwrap().unwrap()] of a [StatOnce] *)
  Definition got {A} (o : option (once A)) : outcome A :=
    match o with Some v => once_unwrap v | None => Panics PUnwrap end.
  Definition add_effect (i : inst P) (p : pair P) (z : Z) : pp := of_outcome (
    let! o := pair_is_then_cast types p eff_distance in
    let! o' := pair_is_then_cast types p eff_allegiance in
    match (if si_index i =? 0 then o else o') with
    | Some v => let! v' := sv_add (VT P VInt) v z in Done (pair_write p StatEffects v')
    | None => Done p
    end).
  (** 207-228 *)
  Definition distance_aura (get : entity -> option entity) : cstream P boolQ := {|
    c_item := entity; c_get := get;
    c_stream := fun this other x p =>
      if pair_is p eff_distance
      then Ask (RRel this other x distance) (fun o : option (once Z) =>
           pbind (of_outcome (got o)) (fun z => add_effect eff_distance p z))
      else Ret p;
    c_attr := fun _ _ _ => Ret false; c_rel := fun _ _ _ p => Ret p |}.
  (** 230-253 *)
  Definition allegiance_aura (get : entity -> option (Z * entity)) : cstream P boolQ := {|
    c_item := Z * entity; c_get := get;
    c_stream := fun this c x p =>
      if pair_is p eff_allegiance
      then Ask (RRel this (snd c) x allegiance) (fun o : option (once rel) =>
           pbind (of_outcome (got o)) (fun r => add_effect eff_allegiance p (match r with Ally => fst c | Enemy => 0 end)))
      else Ret p;
    c_attr := fun _ _ _ => Ret false; c_rel := fun _ _ _ p => Ret p |}.

  (** 256-272: [a] is entity 0 with child 2, [b] entity 1 with child 3. *)
  Definition the_world : world P boolQ := {|
    w_defaults := None; w_relations := None; w_placeholder := 99%nat;
    w_entities := fun e => match e with 0 => Some (Some [2]) | 1 => Some (Some [3]) | _ => None end%nat |}.
  (** 280-288, for the position of [a] and the allegiance of [b] *)
  Definition querier (a_pos : Z * Z) (b_side : bool) : joined P boolQ :=
    with_children (with_children (with_relation (sq_with_relation the_world true
      (side (table [(0, false); (1, b_side)]%nat)))
      (position (table [(0%nat, a_pos); (1%nat, (4, 5))])))
      (allegiance_aura (table [(2%nat, (5, 1%nat)); (3%nat, (7, 0%nat))])))
      (distance_aura (table [(2, 1); (3, 0)]%nat)).

  (** A system that queries with the components as they are, and clears the cache ([None]). *)
  Definition ask : Type := option ((Z * Z) * bool * entity * inst P).
  Fixpoint system (c : cache P boolQ) (l : list ask) : list (outcome (option Z)) :=
    match l with
    | [] => []
    | None :: l' => system [] l'
    | Some (a_pos, b_side, e, i) :: l' =>
        let '(r, c') := run (client (querier a_pos b_side) 5 (p_query e (@Aggregate boolQ false) i)) c in
        (match si_ty i as t return outcome (option (val (VT P (vt_value P t)))) -> outcome (option Z) with
         | StatEffects => fun r => let! v := r in
             match v with Some v => let! z := sv_eval (VT P VInt) v in Done (Some (z : Z)) | None => Done None end
         | _ => fun _ => UB
         end r) :: system c' l'
    end.
  Definition d (a_pos : Z * Z) (e : entity) : ask := Some (a_pos, true, e, eff_distance).
  Definition g (b_side : bool) (e : entity) : ask := Some ((-1, -7), b_side, e, eff_allegiance).
  (** 289-361 *)
  Definition script : list ask :=
    [ d (-1, 7) 0%nat; d (-1, 7) 1%nat; d (-1, -7) 0%nat; d (-1, -7) 1%nat; None;
      d (-1, -7) 0%nat; d (-1, -7) 1%nat; g true 0%nat; g true 1%nat; g false 0%nat; g false 1%nat; None;
      g false 0%nat; g false 1%nat ].
  Example distance_ok :
    system [] script = map (fun z => Done (Some z)) [7; 7; 7; 7; 17; 17; 0; 0; 0; 0; 5; 7].
  Proof. vm_compute. reflexivity. Qed.
End Distance.

(** * tests/asset.rs *)
Module Asset.
  Inductive st := Damage | Defense.
  Definition prog : Prog := {|
    vty := unit; vty_dec := ltac:(decide equality);
    VT := fun _ => statFloat f32F;
    v_size := fun _ => 16; v_align := fun _ => 4;
    sty := st; sty_dec := ltac:(decide equality);
    vt_value := fun _ => tt; vt_addr := fun s => match s with Damage => 4096 | Defense => 8192 end
  |}.
  Definition types : StatTypes prog := @Build_StatTypes prog (fun _ => 0) (fun _ => 1) (fun _ _ => Done 0).
  Definition damage : inst prog := @Inst prog Damage 0.
  Definition defense : inst prog := @Inst prog Defense 0.
  Definition f (z : Z) : f32 := b_of_int 24 128 prec24 emax128 z.
  Definition half : f32 := @Bdiv 24 128 prec24 emax128 mode_NE (f 1) (f 2).
  (** 66-98: the handle and the asset together, so that the lookup in the context gives the damage. *)
  Definition weapon (get : entity -> option (f32 * f32)) : cstream prog intQ := {|
    c_item := f32 * f32; c_get := get;
    c_stream := fun _ c _ p => of_outcome (
      let! o := pair_is_then_cast types p damage in
      match o with
      | Some v => let! x := f_mul f32F (fst c) (snd c) in let! v' := sv_add (VT prog tt) v x in Done (pair_write p Damage v')
      | None => Done p
      end);
    c_attr := fun _ _ _ => Ret false; c_rel := fun _ _ _ p => Ret p |}.
  (** 112-131: [A] is entity 0 with child 2, [B] entity 1 with children 3 and 4. There is no cache. *)
  Definition the_world : world prog intQ := {|
    w_defaults := None; w_relations := None; w_placeholder := 99%nat;
    w_entities := fun e => match e with 0 => Some (Some [2]) | 1 => Some (Some [3; 4]) | _ => None end%nat |}.
  Definition querier : joined prog intQ :=
    sq_with_children the_world false (weapon (table [(2%nat, (f 4, half)); (3%nat, (f 8, f 1)); (4%nat, (f 6, f 2))])).
  Definition eval (e : entity) (i : inst prog) : outcome (option spec_float) :=
    let! v := (fst (run (client querier 5 (p_query e (@Aggregate intQ 0) i)) []) : outcome (option (quad f32 f32))) in
    match v with
    | Some v => let! r := (sv_eval (statFloat f32F) v : outcome f32) in Done (Some (B2SF r))
    | None => Done None
    end.
  (** 140-157 *)
  Example asset_ok :
    [eval 0%nat damage; eval 0%nat defense; eval 1%nat damage; eval 1%nat defense]
    = map (fun z => Done (Some (B2SF (f z)))) [2; 0; 20; 0].
  Proof. vm_compute. reflexivity. Qed.
End Asset.
