(** Worlds and streams for the examples. *)
From Coq Require Import ZArith List Bool String.
From Verif Require S_Types.
From Verif Require Import M_Outcome M_Value M_Types M_Qualifier M_Search M_Stat M_StatMap M_HashMap M_Pair M_Defaults M_Querier S_Querier S_Demo S_DemoDefaults.
Import ListNotations.
Local Open Scope Z_scope.

Definition dprog : Type -> Type := prog demo intQ.
Definition dstream : Type := cstream demo intQ.
Definition dquery : Type := qquery intQ.
Definition any : dquery := @Aggregate intQ 0.

(** [if let Some(v) = pair.is_then_cast(&Hp) { v.add(x) }] *)
Definition add_to_hp (x : Z) (p : pair demo) : dprog (pair demo) :=
  of_outcome (let! o := pair_is_then_cast demoT p hp in
              match o with
              | Some v => let! v' := sv_add (VT demo VNum) v x in Done (pair_write p Hp v')
              | None => Done p
              end).
(** A component holding a number: adds it to hp, has the attribute "strong" from 10 on, and as
    a relation adds the difference. *)
Definition gear (get : entity -> option Z) : dstream := {|
  c_item := Z; c_get := get;
  c_stream := fun _ i _ p => add_to_hp i p;
  c_attr := fun _ i a => Ret (String.eqb a "strong" && (10 <=? i));
  c_rel := fun i k _ p => add_to_hp (i - k) p
|}.
(** A component naming another entity: adds that entity's hp. *)
Definition link (get : entity -> option entity) : dstream := {|
  c_item := entity; c_get := get;
  c_stream := fun _ i x p => Ask (RStat i x hp) (fun o : option (quad Z Z) =>
    match o with Some v => add_to_hp (addend v) p | None => Ret p end);
  c_attr := fun _ i a => Ask (RAttr i a) Ret;
  c_rel := fun _ _ _ p => Ret p
|}.
(** A component that puts another pair in place of a query for hp. *)
Definition swap (by_ : pair demo) (get : entity -> option unit) : dstream := {|
  c_item := unit; c_get := get;
  c_stream := fun _ _ _ p => Ret (if pair_is p hp then by_ else p);
  c_attr := fun _ _ _ => Ret false;
  c_rel := fun _ _ _ p => Ret p
|}.
Definition alive_pair : pair demo := @Pair demo alive (@Buf demo VBool true).

(** Components as finite tables. *)
Definition tab {A} (l : list (entity * A)) : entity -> option A :=
  fun e => option_map snd (List.find (fun p : entity * A => Nat.eqb (fst p) e) l).
(** Entity 0 has children 1, 2 and 3; entities 0, 1 and 4 are marked. *)
Definition demo_world : world demo intQ := {|
  w_defaults := Some (demo_defaults [dput_hp 100]);
  w_relations := Some [fun _ x p => of_outcome (map_stream bs_new (demo_run [put_hp none 7; put_hp fire 50]) x p)];
  w_entities := fun e => match e with 0 => Some (Some [1; 2; 3]) | 1 | 4 => Some None | _ => None end%nat;
  w_placeholder := 77%nat
|}.
Definition bare_world : world demo intQ := {|
  w_defaults := None; w_relations := None; w_entities := w_entities demo_world; w_placeholder := 77%nat |}.
Definition body_gear : dstream := gear (tab [(0%nat, 1); (1%nat, 20); (5%nat, 19)]).
Definition child_gear : dstream := gear (tab [(1%nat, 300); (3%nat, 4000); (4%nat, 10000)]).
Definition bond : dstream := gear (tab [(0%nat, 11); (1%nat, 3)]).
Definition to1 : dstream := link (tab [(0, 1); (5, 1)]%nat).
Definition loop : dstream := link (tab [(0, 1); (1, 0)]%nat).
Definition demo_joined (cached : bool) : joined demo intQ :=
  with_relation (with_children (with_component (sq_with_component demo_world cached body_gear) to1) child_gear) bond.
(** Observations at plain types. *)
Definition see_hp (j : joined demo intQ) (n : nat) (e : entity) (x : dquery) : outcome (option (quad Z Z)) :=
  fst (run (client j n (p_query e x hp)) []).
Definition see_rel (j : joined demo intQ) (n : nat) (f t : entity) (x : dquery) : outcome (option (quad Z Z)) :=
  fst (run (client j n (p_relation f t x hp)) []).
Definition see_attr (j : joined demo intQ) (n : nat) (e : entity) (a : attribute) : outcome bool :=
  fst (run (client j n (Ask (RAttr e a) Ret)) []).
Definition see_eval (j : joined demo intQ) (n : nat) (e : entity) (x : dquery) : outcome (option Z) :=
  fst (run (client j n (p_query_eval e x hp)) []).
(** A history of queries for hp by several queriers sharing the cache: the base values seen,
    and the number of entries at the end. *)
Fixpoint see_history (c : cache demo intQ) (l : list (joined demo intQ * nat * option (entity * dquery))) : list (outcome (option Z)) * nat :=
  match l with
  | [] => ([], List.length c)
  | (j, n, Some (e, x)) :: l' =>
      let '(o, c1) := run (client j n (p_query e x hp)) c in
      let '(r, k) := see_history c1 l' in
      ((let! v := o in Done (option_map addend v)) :: r, k)
  | (j, n, None) :: l' => see_history (snd (run (client j n (Wipe (Ret tt))) c)) l'
  end.
(** hp then atk of an entity, with and without the history's cache. *)
Definition hp_then_atk (e : entity) (x : dquery) : dprog (option Z * option Z) :=
  Ask (RStat e x hp) (fun a : option (quad Z Z) => Ask (RStat e x atk) (fun b : option (quad Z Z) =>
    Ret (option_map addend a, option_map addend b))).
Definition see_both (j : joined demo intQ) (n : nat) (e : entity) (x : dquery) : outcome (option Z * option Z) :=
  fst (run (client j n (hp_then_atk e x)) []).
(** A querier with one stream that swaps pairs. *)
Definition swapping (by_ : pair demo) (cached : bool) : joined demo intQ :=
  sq_with_component bare_world cached (swap by_ (tab [(0%nat, tt)])).
Definition looping (cached : bool) : joined demo intQ := sq_with_component bare_world cached loop.
(** The same world with other streams. *)
Definition other_joined (cached : bool) : joined demo intQ := sq_with_component demo_world cached child_gear.
(** Base values seen by threads run by a schedule, and the size of the cache at the end. *)
Definition see_threads (ts : list (nat * dprog Z)) (j : joined demo intQ) (is : list nat) : list (option Z) * nat :=
  let s := schedule is (map (fun t => client j (fst t) (snd t)) ts, []) in
  (map (fun m => match m with ARet v => Some v | _ => None end) (fst s), List.length (snd s)).
(** A thread asking for hp, and one that clears the cache in between. *)
Definition ask_hp (e : entity) (x : dquery) : dprog Z :=
  Ask (RStat e x hp) (fun o : option (quad Z Z) => Ret match o with Some v => addend v | None => -1 end).
Definition ask_clear_ask (e : entity) (x : dquery) : dprog Z := Ask (RStat e x hp) (fun _ => Wipe (ask_hp e x)).
(** Two threads asking the same question at the same time: buffers forgotten by the next step of the second. *)
Definition see_race (j : joined demo intQ) (is : list nat) : list (option Z) * nat :=
  let s := schedule is ([client j 3 (ask_hp 0%nat any); client j 3 (ask_hp 0%nat any)], []) in
  (map (fun m => match m with ARet v => Some v | _ => None end) (fst s),
   match fst s with [_; m] => List.length (forgotten m (snd s)) | _ => 0%nat end).
(** Streams in another order. *)
Definition quiet_link (get : entity -> option entity) : dstream := {|
  c_item := entity; c_get := get; c_stream := c_stream (link get);
  c_attr := fun _ _ _ => Ret false; c_rel := fun _ _ _ p => Ret p |}.
Definition to4 : dstream := quiet_link (tab [(0, 4)]%nat).
Definition one_order : joined demo intQ :=
  with_relation (with_children (with_component (sq_with_component bare_world false body_gear) to4) child_gear) bond.
Definition turned_world : world demo intQ := {|
  w_defaults := None; w_relations := Some []; w_placeholder := 77%nat;
  w_entities := fun e => match e with 0 => Some (Some [3; 2; 1]) | 1 | 4 => Some (Some []) | _ => None end%nat |}.
Definition other_order : joined demo intQ :=
  with_relation (with_component (with_component (sq_with_children turned_world false child_gear) to4) body_gear) bond.

(** The streams of [demo_joined] without defaults and global relations. *)
Definition bare_demo : joined demo intQ :=
  with_relation (with_children (with_component (sq_with_component bare_world true body_gear) to1) child_gear) bond.
(** Entity 1 asks nothing, the others may ask about it. *)
Definition rank (r : request demo intQ) : nat :=
  match r with RStat e _ _ | RAttr e _ => if Nat.eqb e 1 then 0 else 1 | RRel _ _ _ _ => 1 end%nat.
(** A component that limits hp from above. *)
Definition cap (get : entity -> option Z) : dstream := {|
  c_item := Z; c_get := get;
  c_stream := fun _ i _ p => of_outcome (
    let! o := pair_is_then_cast demoT p hp in
    match o with
    | Some v => let! v' := sv_max (VT demo VNum) v i in Done (pair_write p Hp v')
    | None => Done p
    end);
  c_attr := fun _ _ _ => Ret false;
  c_rel := fun _ _ _ p => Ret p
|}.
Definition cap1 : dstream := cap (tab [(0%nat, 70); (1%nat, 20); (3%nat, 50)]).
Definition cap2 : dstream := cap (tab [(0%nat, 60); (2%nat, 90)]).
Definition caps : joined demo intQ := with_children (with_component (sq_with_component bare_world false cap1) cap2) cap1.
Definition caps_turned : joined demo intQ := with_component (with_component (sq_with_children turned_world false cap1) cap2) cap1.
(** Contributions that only bound. *)
Definition bounding (t : vty demo) (o : S_Types.step (VT demo t)) : Prop :=
  match o with S_Types.SOp (OMin _) | S_Types.SOp (OMax _) => True | _ => False end.
Definition see_top (j : joined demo intQ) (e : entity) : outcome (option Z) := omap (option_map vmax) (see_hp j 3 e any).
