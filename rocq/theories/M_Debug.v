(** The [Debug] implementations that look into erased values: [StatMap] (src/stat_map.rs:72-90),
    [GlobalStatDefaults] (src/plugin.rs:128-138), [StatCache] (src/cache.rs:29-41) and
    [StatValuePair] (src/stat.rs:286-295); and [StatDeserializers] (src/plugin.rs:244-250). The others
    ([Querier], [GlobalStatRelations], [ErasedStatVTable]) print a constant.
    What is written is represented by its items, keys kept as they are; a formatter that returns
    [Err] is not represented. *)
From Coq Require Import ZArith String List Bool.
From Verif Require Import M_Outcome M_Value M_Qualifier M_Stat M_HashMap M_StatMap M_Pair M_Defaults M_Registry M_Querier M_Poison.
Import ListNotations.

Section Debug.
  Context {P : Prog} {Q : QFlag} (N : StatNames P).
  (** [Debug for T::Value], the user's (it may panic). *)
  Variable show : forall t : vty P, val (VT P t) -> outcome string.

  (** [StatInst::name] (src/stat.rs:124-126) *)
  Definition inst_name (s : inst P) : outcome string := sn_name N (si_ty s) (si_index s).
  (** [as_debug] of [StatVTable::of] (src/stat.rs:51) and of [no_serialize] (81-85), and the call
      of the formatter on the reference. *)
  Definition vt_debug (s : inst P) (b : buffer P) : outcome string :=
    let! v := buf_ref P (vt_value P (si_ty s)) b in show _ v.

  (** src/stat_map.rs:73-89 *)
  Fixpoint map_debug (m : map_t P Q) : outcome (list (qualifier Q * string * string)) :=
    match m with
    | [] => Done []
    | e :: m' =>
        let! n := inst_name (e_stat e) in
        let! d := vt_debug (e_stat e) (e_val e) in
        let! r := map_debug m' in
        Done ((e_qual e, n, d) :: r)
    end.

  (** src/plugin.rs:129-137; a buffer that holds an operation is read like any other. *)
  Fixpoint defaults_debug (d : defaults P) : outcome (list (string * string)) :=
    match d with
    | [] => Done []
    | (s, b) :: d' =>
        let! n := inst_name s in
        let! v := d_cast (vt_value P (si_ty s)) b in
        let! x := show _ v in
        let! r := defaults_debug d' in
        Done ((n, x) :: r)
    end.

  (** src/cache.rs:30-40: under a read guard, taken with [unwrap]. *)
  Fixpoint entries_debug (c : cache P Q) : outcome (list (entity * qquery Q * string * string)) :=
    match c with
    | [] => Done []
    | (e, x, s, b) :: c' =>
        let! n := inst_name s in
        let! d := vt_debug s b in
        let! r := entries_debug c' in
        Done ((e, x, n, d) :: r)
    end.
  Definition cache_debug (st : pcache P Q) : outcome (list (entity * qquery Q * string * string)) :=
    if pc_poisoned st then Panics PUnwrap else entries_debug (pc_map st).

  (** src/stat.rs:287-294 *)
  Definition pair_debug (p : pair P) : outcome (string * string) :=
    let! n := inst_name (p_stat p) in
    let! d := vt_debug (p_stat p) (p_buf p) in
    Done (n, d).

  (** src/plugin.rs:244-250, with [derive(Debug)] of [StatInst] (src/stat.rs:117): the index and a
      constant for the vtable. The name function is not called. *)
  Definition registry_debug (m : registry P) : list (string * Z) := map (fun p => (fst p, si_index (snd p))) m.
End Debug.
