(** [FxHashMap] as far as the library uses it: an association list with at most one entry per
    key. Iteration order is never relied on by a modelled function. *)
From Coq Require Import List Bool.
Import ListNotations.

Section HashMap.
  Context {K V : Type} (eqb : K -> K -> bool).
  Definition hmap : Type := list (K * V).

  (** [HashMap::get] *)
  Fixpoint hget (m : hmap) (k : K) : option V :=
    match m with
    | [] => None
    | (k', v) :: m' => if eqb k' k then Some v else hget m' k
    end.
  (** [HashMap::insert]: the new map and the displaced value. As in std the key already in the
      map is kept. *)
  Fixpoint hput (m : hmap) (k : K) (v : V) : hmap * option V :=
    match m with
    | [] => ([(k, v)], None)
    | (k', v') :: m' =>
        if eqb k' k then ((k', v) :: m', Some v')
        else let (r, old) := hput m' k v in ((k', v') :: r, old)
    end.
  (** Replacing the value behind the reference of [get_mut]. *)
  Fixpoint hset (m : hmap) (k : K) (v : V) : hmap :=
    match m with
    | [] => []
    | (k', v') :: m' => if eqb k' k then (k', v) :: m' else (k', v') :: hset m' k v
    end.
End HashMap.
Arguments hmap : clear implicits.
