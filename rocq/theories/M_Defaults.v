(** [GlobalStatDefaults] (src/plugin.rs:120-191). *)
From Coq Require Import ZArith List Bool.
From Verif Require Import M_Outcome M_Value M_Stat M_HashMap.
Import ListNotations.
Local Open Scope Z_scope.

Section Defaults.
  Variable P : Prog.
  (** Size and alignment of [StatOperation<V>] for a value type [V] (a type the compiler lays out). *)
  Variables o_size o_align : vty P -> Z.
  Notation tyof s := (vt_value P (si_ty s)).
  Notation VS s := (VT P (tyof s)).

  (** What the buffers of the table hold: a value, or (see [d_patch]) a whole [StatOperation]. *)
  Inductive dbuf : Type :=
  | DVal (b : buffer P)
  | DOp (t : vty P) (op : stat_op (VT P t)).
  (** Access at value type [t]. The bytes of a [StatOperation] are not those of a value. *)
  Definition d_cast (t : vty P) (b : dbuf) : outcome (val (VT P t)) :=
    match b with DVal b => buf_ref P t b | DOp _ _ => let! _ := validate_ty P t in UB end.

  Definition defaults : Type := hmap (inst P) dbuf.

  (** [insert] (148-150). The displaced buffer is forgotten: [Buffer] has no [Drop]. *)
  Definition d_insert (d : defaults) (s : inst P) (v : val (VS s)) : outcome (defaults * list dbuf) :=
    let! b := buf_from P (tyof s) v in
    let (d', old) := hput inst_eqb d s (DVal b) in
    Done (d', match old with Some b => [b] | None => [] end).

  (** [patch] (153-165). On an absent key line 161 stores [Buffer::from(value)], and [value] is
      the operation; the patched default of lines 159-160 is dropped. *)
  Definition d_patch (d : defaults) (s : inst P) (op : stat_op (VS s)) : outcome defaults :=
    match hget inst_eqb d s with
    | Some b =>
        let! v := d_cast (tyof s) b in
        let! v' := write_to op v in
        Done (hset inst_eqb d s (DVal (Buf (tyof s) v')))
    | None =>
        let! _ := write_to op (sv_default (VS s)) in
        let! _ := validate (o_size (tyof s)) (o_align (tyof s)) in
        Done (fst (hput inst_eqb d s (DOp (tyof s) op)))
    end.

  (** [get] (168-174) *)
  Definition d_get (d : defaults) (s : inst P) : outcome (val (VS s)) :=
    match hget inst_eqb d s with
    | Some b => d_cast (tyof s) b
    | None => Done (sv_default (VS s))
    end.
  (** [get_dyn] (177-182): the result and what is lost, because the argument of [unwrap_or] is
      built even when it is not needed. *)
  Definition d_get_dyn (d : defaults) (s : inst P) : outcome (buffer P * list (buffer P)) :=
    let! found := match hget inst_eqb d s with
                  | Some b => let! v := d_cast (tyof s) b in let! c := buf_from P (tyof s) v in Done (Some c)
                  | None => Done None
                  end in
    let! dflt := vt_default P (si_ty s) in
    match found with
    | Some c => Done (c, [dflt])
    | None => Done (dflt, [])
    end.
  (** [Drop] (185-191): each buffer is read at the type of its key and dropped. *)
  Fixpoint d_drop (d : defaults) : outcome (list (buffer P)) :=
    match d with
    | [] => Done []
    | (s, b) :: d' =>
        let! v := d_cast (tyof s) b in
        let! r := d_drop d' in
        Done (Buf (tyof s) v :: r)
    end.

  (** Calls through [StatExtension] (54-70): [register_stat_default], and
      [register_stat_min]/[register_stat_max], which patch with [Min]/[Max]. *)
  Inductive dcall : Type :=
  | DInsert (s : inst P) (v : val (VS s))
  | DPatch (s : inst P) (op : stat_op (VS s)).
  Definition register_min (s : inst P) (x : boundsT (VS s)) : dcall := DPatch s (OMin x).
  Definition register_max (s : inst P) (x : boundsT (VS s)) : dcall := DPatch s (OMax x).
  Definition d_step (d : defaults) (c : dcall) : outcome (defaults * list dbuf) :=
    match c with
    | DInsert s v => d_insert d s v
    | DPatch s op => let! d' := d_patch d s op in Done (d', [])
    end.
  (** A history: the table and everything that was lost on the way. *)
  Fixpoint d_run (d : defaults) (l : list dcall) : outcome (defaults * list dbuf) :=
    match l with
    | [] => Done (d, [])
    | c :: l' =>
        let! r := d_step d c in
        let! r' := d_run (fst r) l' in
        Done (fst r', snd r ++ snd r')
    end.
End Defaults.
Arguments DVal {P}.
Arguments DOp {P}.
Arguments d_cast {P}.
Arguments d_insert {P}.
Arguments d_patch {P}.
Arguments d_get {P}.
Arguments d_get_dyn {P}.
Arguments d_drop {P}.
Arguments DInsert {P}.
Arguments DPatch {P}.
Arguments register_min {P}.
Arguments register_max {P}.
Arguments d_step {P}.
Arguments d_run {P}.
