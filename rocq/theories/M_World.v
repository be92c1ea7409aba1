(** The resources of a world and the extension methods that fill them
    (src/plugin.rs:15-118, src/querier.rs:22-36, 345-349). *)
From Coq Require Import ZArith List Bool String.
From Verif Require Import M_Outcome M_Value M_Qualifier M_Stat M_HashMap M_Pair M_Defaults M_Registry M_Querier.
Import ListNotations.

Section World.
  Context {P : Prog} {Q : QFlag} (N : StatNames P).
  (** Size and alignment of [StatOperation<V>]. *)
  Variables o_size o_align : vty P -> Z.
  Notation VS s := (VT P (vt_value P (si_ty s))).

  (** The four resources, for one flag type [Q] (those of other flag types are separate). *)
  Record resources : Type := {
    r_names : option (registry P);
    r_defaults : option (defaults P);
    r_relations : option (list (gstream P Q));
    r_cache : option (cache P Q)
  }.
  (** [World::new] *)
  Definition no_resources : resources := {| r_names := None; r_defaults := None; r_relations := None; r_cache := None |}.

  (** [World::get_resource_or_insert_with] (bevy) with the default of the resource: empty tables. *)
  Definition or_insert {A} (o : option (list A)) : list A := match o with Some l => l | None => [] end.

  (** What else a query depends on: entities and components with the streams reading them. *)
  Record scene : Type := {
    sc_entities : entity -> option (option (list entity));
    sc_placeholder : entity;
    sc_comp : qstream P Q;
    sc_child : qstream P Q;
    sc_rel : qstream P Q
  }.
  (** The [StatQuery] system parameter (27-36) takes whichever of the resources exist; streams attached. *)
  Definition querier_of (r : resources) (sc : scene) : joined P Q := {|
    j_world := {| w_defaults := r_defaults r; w_relations := r_relations r;
                  w_entities := sc_entities sc; w_placeholder := sc_placeholder sc |};
    j_cached := match r_cache r with Some _ => true | None => false end;
    j_comp := sc_comp sc; j_child := sc_child sc; j_rel := sc_rel sc
  |}.
  Definition w_query (r : resources) (sc : scene) (n : nat) {A} (p : prog P Q A) : outcome A * cache P Q :=
    run (client (querier_of r sc) n p) (or_insert (r_cache r)).

  Definition set_names (r : resources) m : resources :=
    {| r_names := Some m; r_defaults := r_defaults r; r_relations := r_relations r; r_cache := r_cache r |}.
  Definition set_defaults (r : resources) d : resources :=
    {| r_names := r_names r; r_defaults := Some d; r_relations := r_relations r; r_cache := r_cache r |}.
  Definition set_relations (r : resources) l : resources :=
    {| r_names := r_names r; r_defaults := r_defaults r; r_relations := Some l; r_cache := r_cache r |}.
  Definition set_cache (r : resources) c : resources :=
    {| r_names := r_names r; r_defaults := r_defaults r; r_relations := r_relations r; r_cache := c |}.

  (** Calls on a [World] (47-84); those on an [App] (86-118) forward to its world. [WCache] is
      [insert_resource(StatCache::new())] by the user, [WQuery] a system that runs code with a
      [StatQuery], [WQueryClear] the [clear_cache] of a [StatQuery] (src/querier.rs:345-349). *)
  Inductive wop : Type :=
  | WRegister (T : sty P)
  | WDefault (s : inst P) (v : val (VS s))
  | WMin (s : inst P) (x : boundsT (VS s))
  | WMax (s : inst P) (x : boundsT (VS s))
  | WRelation (g : gstream P Q)
  | WClear
  | WCache
  | WQuery (sc : scene) (n : nat) (p : prog P Q unit)
  | WQueryClear
  | WSeed (e : entity) (x : qquery Q) (p : pair P).
  (** One call. A call that does not return ends the history. *)
  Definition w_step (r : resources) (o : wop) : outcome resources :=
    match o with
    (* 48-52 *)
    | WRegister T => let m := register N (or_insert (r_names r)) T in let! _ := snd m in Done (set_names r (fst m))
    (* 54-58 *)
    | WDefault s v => let! d := d_insert (or_insert (r_defaults r)) s v in Done (set_defaults r (fst d))
    (* 60-64 *)
    | WMin s x => let! d := d_step o_size o_align (or_insert (r_defaults r)) (register_min s x) in Done (set_defaults r (fst d))
    (* 66-70 *)
    | WMax s x => let! d := d_step o_size o_align (or_insert (r_defaults r)) (register_max s x) in Done (set_defaults r (fst d))
    (* 76-83 *)
    | WRelation g => Done (set_relations r (or_insert (r_relations r) ++ [g]))
    (* 72-74: [resource_mut] panics if there is no such resource *)
    | WClear => match r_cache r with Some c => let! _ := cache_drop c in Done (set_cache r (Some [])) | None => Panics PUnwrap end
    | WCache =>
        let! _ := match r_cache r with Some c => cache_drop c | None => Done tt end in
        Done (set_cache r (Some []))
    | WQuery sc n p =>
        let q := w_query r sc n p in
        let! _ := fst q in
        Done (match r_cache r with Some _ => set_cache r (Some (snd q)) | None => r end)
    | WQueryClear => match r_cache r with Some c => let! _ := cache_drop c in Done (set_cache r (Some [])) | None => Done r end
    | WSeed e x p =>
        match r_cache r with
        | Some c => let! b := pair_clone_buffer p in Done (set_cache r (Some (fst (hput key_eqb c (e, x, p_stat p) b))))
        | None => Panics PUnwrap
        end
    end.
  Fixpoint w_run (r : resources) (l : list wop) : outcome resources :=
    match l with [] => Done r | o :: l' => let! r' := w_step r o in w_run r' l' end.
End World.
Arguments resources : clear implicits.
Arguments scene : clear implicits.
Arguments wop : clear implicits.
Arguments WRegister {P Q}.
Arguments WDefault {P Q}.
Arguments WMin {P Q}.
Arguments WMax {P Q}.
Arguments WRelation {P Q}.
Arguments WClear {P Q}.
Arguments WCache {P Q}.
Arguments WQuery {P Q}.
Arguments WQueryClear {P Q}.
Arguments WSeed {P Q}.
Arguments r_names {P Q}.
Arguments r_defaults {P Q}.
Arguments r_relations {P Q}.
Arguments r_cache {P Q}.
Arguments no_resources {P Q}.
Arguments sc_entities {P Q}.
Arguments sc_placeholder {P Q}.
Arguments sc_comp {P Q}.
Arguments sc_child {P Q}.
Arguments sc_rel {P Q}.
