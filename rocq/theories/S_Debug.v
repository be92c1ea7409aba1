(** What is to be printed: keys, stats and values of the stat's type. *)
From Coq Require Import ZArith String List Bool.
From Verif Require Import M_Outcome M_Value M_Types M_Qualifier M_Search M_Stat M_HashMap M_StatMap M_Pair M_Defaults M_Registry M_Querier M_Poison M_Debug
  S_StatMap S_Demo S_DemoDefaults S_Registry S_Querier S_DemoQuery S_Poison.
Import ListNotations.

Section S.
  Context {P : Prog} (N : StatNames P) (show : forall t : vty P, val (VT P t) -> outcome string).
  Record shown (K : Type) : Type := Shown { i_key : K; i_stat : inst P; i_val : val (VT P (vt_value P (si_ty i_stat))) }.
  (** Printing the items in order: the key, the stat's name, the value as its type prints it. *)
  Fixpoint listing {K} (l : list (shown K)) : outcome (list (K * string * string)) :=
    match l with
    | [] => Done []
    | i :: l' =>
        let! n := sn_name N (si_ty (i_stat _ i)) (si_index (i_stat _ i)) in
        let! d := show _ (i_val _ i) in
        let! r := listing l' in
        Done ((i_key _ i, n, d) :: r)
    end.
  (** The user's functions return. *)
  Definition printable : Prop := (forall T i, exists n, sn_name N T i = Done n) /\ (forall t v, exists d, show t v = Done d).
  (** They are free of undefined behaviour (they may panic). *)
  Definition printing_safe : Prop := (forall T i, sn_name N T i <> UB) /\ (forall t v, show t v <> UB).
End S.
Arguments Shown {P K}.
Arguments i_key {P K}.
Arguments i_stat {P K}.
Arguments i_val {P K}.

(** Printing of the demo values: numbers print as one of three strings, and 13 panics. *)
Definition demo_show (t : demo_v) : val (VT demo t) -> outcome string :=
  match t with
  | VNum => fun v : quad Z Z => if (addend v =? 13)%Z then Panics PUser else Done (if (addend v =? 7)%Z then "7" else if (addend v =? 3)%Z then "3" else "..")%string
  | VBool => fun b : bool => Done (if b then "true" else "false")%string
  end.
Definition see_map (l : list dop) : outcome (list (Z * Z * string * string)) :=
  let! r := map_debug demoN demo_show (demo_run l) in
  Done (map (fun p => (any_of (fst (fst p)), all_of (fst (fst p)), snd (fst p), snd p)) r).
Definition see_defaults (l : list (dcall demo)) : outcome (list (string * string)) := defaults_debug demoN demo_show (demo_defaults l).
Definition see_cache (poisoned : bool) (l : list (nat * dprog unit)) : outcome (list (entity * qquery intQ * string * string)) :=
  cache_debug demoN demo_show (PCache (after (demo_joined true) l []) poisoned).
Definition see_pair (p : pair demo) : outcome (string * string) := pair_debug demoN demo_show p.
