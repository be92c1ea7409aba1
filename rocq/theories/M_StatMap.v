(** [StatMap] (src/stat_map.rs): a vector of entries sorted by (stat, qualifier). *)
From Coq Require Import ZArith Arith List Bool.
From Verif Require Import M_Outcome M_Value M_Qualifier M_Search M_Stat.
Import ListNotations.

(** The vector operations, for stored values of any type [V] (so that ownership can be followed);
    below [V] is [buffer]. Functions that release values return them. *)
Section Core.
  Variable P : Prog.
  Variable Q : QFlag.
  Variable V : Type.
  (** [slice::binary_search_by] of the std in use. *)
  Variable bs : list comparison -> bsres.

  (** [StatMapEntry] (src/stat_map.rs:19-23). *)
  Record entry : Type := Entry { e_stat : inst P; e_qual : qualifier Q; e_val : V }.
  Definition statmap : Type := list entry.

  (** [(s, q).cmp(&(stat, qualifier))] (161): tuples compare lexicographically; so does [sort]
      (97-99). *)
  Definition key_cmp (s : inst P) (q : qualifier Q) (s' : inst P) (q' : qualifier Q) : comparison :=
    match inst_cmp s s' with Eq => qual_cmp q q' | c => c end.
  Definition entry_cmp (a b : entry) : comparison :=
    key_cmp (e_stat a) (e_qual a) (e_stat b) (e_qual b).

  (** [Vec] indexing, [insert], [remove], element assignment. *)
  Definition vec_get (m : statmap) (i : nat) : outcome entry :=
    match nth_error m i with Some e => Done e | None => Panics PIndex end.
  Definition vec_set (m : statmap) (i : nat) (e : entry) : outcome statmap :=
    if i <? length m then Done (firstn i m ++ e :: skipn (S i) m) else Panics PIndex.
  Definition vec_insert (m : statmap) (i : nat) (e : entry) : outcome statmap :=
    if i <=? length m then Done (firstn i m ++ e :: skipn i m) else Panics PIndex.
  Definition vec_remove (m : statmap) (i : nat) : outcome (statmap * entry) :=
    match nth_error m i with
    | Some e => Done (firstn i m ++ skipn (S i) m, e)
    | None => Panics PIndex
    end.

  (** [binary_search] (155-163). *)
  Definition search (m : statmap) (q : qualifier Q) (s : inst P) : bsres :=
    bs (map (fun e => key_cmp (e_stat e) (e_qual e) s q) m).

  (** [insert] after the buffer is built (169-179; [insert_base] 191-201 is the same). A
      [Buffer] has no [Drop], so the overwritten one is leaked (second component). *)
  Definition put (m : statmap) (q : qualifier Q) (s : inst P) (v : V) : outcome (statmap * list V) :=
    match search m q s with
    | inl i =>
        let! e := vec_get m i in
        let! m' := vec_set m i (Entry (e_stat e) (e_qual e) v) in
        Done (m', [e_val e])
    | inr i => let! m' := vec_insert m i (Entry s q v) in Done (m', [])
    end.

  (** [get] (207-210), [get_evaled] (242-245): the buffer found. *)
  Definition find (m : statmap) (q : qualifier Q) (s : inst P) : outcome (option V) :=
    match search m q s with
    | inl i => let! e := vec_get m i in Done (Some (e_val e))
    | inr _ => Done None
    end.

  (** [get_mut] (220-223) and the write through the reference, in place. *)
  Definition update (m : statmap) (q : qualifier Q) (s : inst P) (f : V -> outcome V) : outcome statmap :=
    match search m q s with
    | inl i =>
        let! e := vec_get m i in
        let! v := f (e_val e) in
        vec_set m i (Entry (e_stat e) (e_qual e) v)
    | inr _ => Done m
    end.

  (** [remove] (229-232); [take] (45-49) moves the value out and forgets the entry. *)
  Definition take (m : statmap) (q : qualifier Q) (s : inst P) : outcome (statmap * option V) :=
    match search m q s with
    | inl i => let! me := vec_remove m i in Done (fst me, Some (e_val (snd me)))
    | inr _ => Done (m, None)
    end.

  (** [modify] (299-312), [modify_with] (325-340): change in place or insert a new value
      (second component). *)
  Definition upsert (m : statmap) (q : qualifier Q) (s : inst P) (f : V -> outcome V) (d : outcome V)
      : outcome (statmap * list V) :=
    match search m q s with
    | inl i =>
        let! e := vec_get m i in
        let! v := f (e_val e) in
        let! m' := vec_set m i (Entry (e_stat e) (e_qual e) v) in Done (m', [])
    | inr i => let! v := d in let! m' := vec_insert m i (Entry s q v) in Done (m', [v])
    end.

  (** The bounds of [slice], [slice_mut], [remove_all] (250-251, 257-258, 284-285). *)
  Definition slice_fst (m : statmap) (s : inst P) : nat :=
    partition_point bs (map (fun e => inst_ltb (e_stat e) s) m).
  Definition slice_snd (m : statmap) (s : inst P) : nat :=
    partition_point bs (map (fun e => inst_leb (e_stat e) s) m).
  (** [&self.inner[fst..snd]] panics unless [fst <= snd <= len]; the parts before, in and after. *)
  Definition cut (m : statmap) (s : inst P) : outcome (statmap * statmap * statmap) :=
    let fst := slice_fst m s in
    let snd := slice_snd m s in
    if (fst <=? snd) && (snd <=? length m)
    then Done (firstn fst m, firstn (snd - fst) (skipn fst m), skipn snd m)
    else Panics PIndex.

  (** [slice], [iter] (249-253, 263-268). *)
  Definition slice (m : statmap) (s : inst P) : outcome statmap :=
    let! c := cut m s in Done (snd (fst c)).

  (** A loop over [iter_mut] (271-279): [f] is run on every item. *)
  Fixpoint update_each (f : qualifier Q -> V -> outcome V) (m : statmap) : outcome statmap :=
    match m with
    | [] => Done []
    | e :: m' =>
        let! v := f (e_qual e) (e_val e) in
        let! r := update_each f m' in
        Done (Entry (e_stat e) (e_qual e) v :: r)
    end.
  Definition update_slice (m : statmap) (s : inst P) (f : qualifier Q -> V -> outcome V) : outcome statmap :=
    let! c := cut m s in
    let! mid := update_each f (snd (fst c)) in
    Done (fst (fst c) ++ mid ++ snd c).

  (** [remove_all] (282-287): the drained entries are dropped. *)
  Definition drain (m : statmap) (s : inst P) : outcome (statmap * list V) :=
    let! c := cut m s in
    Done (fst (fst c) ++ snd c, map e_val (snd (fst c))).

  (** [Vec::sort_by] is a stable sort (std); any stable sort gives this result. *)
  Fixpoint sort_insert (e : entry) (l : statmap) : statmap :=
    match l with
    | [] => [e]
    | x :: l' => match entry_cmp e x with Gt => x :: sort_insert e l' | _ => e :: l end
    end.
  Definition sort (l : statmap) : statmap := fold_right sort_insert [] l.

  (** [Extend] (119-132); [FromIterator] (101-117) is [extend] of the empty map. *)
  Definition extend (m : statmap) (l : list entry) : statmap := sort (m ++ l).
  Definition from_iter (l : list entry) : statmap := sort l.

  (** [Clone] (25-33, derived for the vector). *)
  Fixpoint clone_with (f : inst P -> V -> outcome V) (m : statmap) : outcome statmap :=
    match m with
    | [] => Done []
    | e :: m' =>
        let! v := f (e_stat e) (e_val e) in
        let! r := clone_with f m' in
        Done (Entry (e_stat e) (e_qual e) v :: r)
    end.

  (** Histories. A mutating operation returns the new map, the values moved into it, the value
      handed to the caller, the values dropped and the values leaked. *)
  Inductive cop : Type :=
  | CPut (q : qualifier Q) (s : inst P) (v : outcome V)
  | CUpdate (q : qualifier Q) (s : inst P) (f : V -> outcome V)
  | CUpsert (q : qualifier Q) (s : inst P) (f : V -> outcome V) (d : outcome V)
  | CTake (q : qualifier Q) (s : inst P)
  | CDrain (s : inst P)
  | CUpdateSlice (s : inst P) (f : qualifier Q -> V -> outcome V)
  | CClear
  | CExtend (l : outcome (list entry)).

  Record effect : Type := Effect {
    x_map : statmap; x_in : list V; x_returned : option V; x_dropped : list V; x_leaked : list V }.

  Definition cop_run (m : statmap) (o : cop) : outcome effect :=
    match o with
    | CPut q s v => let! v := v in let! r := put m q s v in Done (Effect (fst r) [v] None [] (snd r))
    | CUpdate q s f => let! m' := update m q s f in Done (Effect m' [] None [] [])
    | CUpsert q s f d => let! r := upsert m q s f d in Done (Effect (fst r) (snd r) None [] [])
    | CTake q s => let! r := take m q s in Done (Effect (fst r) [] (snd r) [] [])
    | CDrain s => let! r := drain m s in Done (Effect (fst r) [] None (snd r) [])
    | CUpdateSlice s f => let! m' := update_slice m s f in Done (Effect m' [] None [] [])
    | CClear => Done (Effect [] [] None (map e_val m) [])
    | CExtend l => let! l := l in Done (Effect (extend m l) (map e_val l) None [] [])
    end.

  Fixpoint cops_run (m : statmap) (l : list cop) : outcome (statmap * list effect) :=
    match l with
    | [] => Done (m, [])
    | o :: l' =>
        let! x := cop_run m o in
        let! r := cops_run (x_map x) l' in
        Done (fst r, x :: snd r)
    end.
End Core.
Arguments Entry {P Q V}.
Arguments e_stat {P Q V}.
Arguments e_qual {P Q V}.
Arguments e_val {P Q V}.
Arguments key_cmp {P Q}.
Arguments entry_cmp {P Q V}.
Arguments vec_get {P Q V}.
Arguments vec_set {P Q V}.
Arguments vec_insert {P Q V}.
Arguments vec_remove {P Q V}.
Arguments search {P Q V}.
Arguments put {P Q V}.
Arguments find {P Q V}.
Arguments update {P Q V}.
Arguments take {P Q V}.
Arguments upsert {P Q V}.
Arguments slice_fst {P Q V}.
Arguments slice_snd {P Q V}.
Arguments cut {P Q V}.
Arguments slice {P Q V}.
Arguments update_each {P Q V}.
Arguments update_slice {P Q V}.
Arguments drain {P Q V}.
Arguments sort_insert {P Q V}.
Arguments sort {P Q V}.
Arguments extend {P Q V}.
Arguments from_iter {P Q V}.
Arguments clone_with {P Q V}.
Arguments CPut {P Q V}.
Arguments CUpdate {P Q V}.
Arguments CUpsert {P Q V}.
Arguments CTake {P Q V}.
Arguments CDrain {P Q V}.
Arguments CUpdateSlice {P Q V}.
Arguments CClear {P Q V}.
Arguments CExtend {P Q V}.
Arguments Effect {P Q V}.
Arguments x_map {P Q V}.
Arguments x_in {P Q V}.
Arguments x_returned {P Q V}.
Arguments x_dropped {P Q V}.
Arguments x_leaked {P Q V}.
Arguments cop_run {P Q V}.
Arguments cops_run {P Q V}.

(** The public methods, over erased buffers. *)
Section Typed.
  Variable P : Prog.
  Variable Q : QFlag.
  Variable bs : list comparison -> bsres.
  Notation tyof s := (vt_value P (si_ty s)).
  Notation VS s := (VT P (tyof s)).
  Definition map_t : Type := statmap P Q (buffer P).

  (** A call of a mutating method of [StatMap]; [S] and the stat value are given by the
      instance [stat.as_entry()] (src/stat.rs:214-219). *)
  Inductive mop : Type :=
  | MInsert (q : qualifier Q) (s : inst P) (v : val (VS s))
  | MInsertBase (q : qualifier Q) (s : inst P) (b : baseT (VS s))
  | MGetMut (q : qualifier Q) (s : inst P) (f : val (VS s) -> outcome (val (VS s)))
  | MRemove (q : qualifier Q) (s : inst P)
  | MModify (q : qualifier Q) (s : inst P) (o : stat_op (VS s))
  | MModifyWith (q : qualifier Q) (s : inst P) (f : val (VS s) -> outcome (val (VS s)))
  | MRemoveAll (s : inst P)
  | MIterMut (s : inst P) (f : qualifier Q -> val (VS s) -> outcome (val (VS s)))
  | MClear
  | MExtend (U : sty P) (l : list (qualifier Q * Z * val (VT P (vt_value P U)))).

  (** The items of an [Extend]/[FromIterator] call (104-113, 122-129), built in order. *)
  Fixpoint build (U : sty P) (l : list (qualifier Q * Z * val (VT P (vt_value P U)))) : outcome map_t :=
    match l with
    | [] => Done []
    | (q, i, v) :: l' =>
        let! b := buf_from P (vt_value P U) v in
        let! r := build U l' in
        Done (Entry (Inst U i) q b :: r)
    end.

  Definition mop_core (o : mop) : cop P Q (buffer P) :=
    match o with
    | MInsert q s v => CPut q s (buf_from P (tyof s) v)                              (* 166-180 *)
    | MInsertBase q s b => CPut q s (buf_from P (tyof s) (sv_from_base (VS s) b))    (* 183-202 *)
    | MGetMut q s f => CUpdate q s (fun b => buf_mut P (tyof s) b f)                 (* 214-224 *)
    | MRemove q s => CTake q s                                                       (* 227-233 *)
    | MModify q s o =>                                                               (* 292-313 *)
        CUpsert q s (fun b => buf_mut P (tyof s) b (write_to o))
                    (let! v := into_stat o in buf_from P (tyof s) v)
    | MModifyWith q s f =>                                                           (* 318-341 *)
        CUpsert q s (fun b => buf_mut P (tyof s) b f)
                    (let! v := f (sv_default (VS s)) in buf_from P (tyof s) v)
    | MRemoveAll s => CDrain s                                                       (* 282-287 *)
    | MIterMut s f => CUpdateSlice s (fun q b => buf_mut P (tyof s) b (f q))         (* 271-279 *)
    | MClear => CClear                                                               (* 140-142 *)
    | MExtend U l => CExtend (build U l)                                             (* 119-132 *)
    end.

  (** Entries that are removed by the map are dropped through their own vtable (35-39); a
      removed entry is read at the type of the caller's stat (230). *)
  Fixpoint drop_all (m : map_t) : outcome unit :=
    match m with
    | [] => Done tt
    | e :: m' => let! _ := vt_drop P (si_ty (e_stat e)) (e_val e) in drop_all m'
    end.
  Definition mop_run (m : map_t) (o : mop) : outcome (effect P Q (buffer P)) :=
    let! x := cop_run bs m (mop_core o) in
    match o with
    | MRemove q s =>
        match x_returned x with
        | Some b => let! _ := buf_read_move P (tyof s) b in Done x
        | None => Done x
        end
    | MRemoveAll s => let! c := slice bs m s in let! _ := drop_all c in Done x
    | MClear => let! _ := drop_all m in Done x
    | _ => Done x
    end.
  Fixpoint mops_run (m : map_t) (l : list mop) : outcome map_t :=
    match l with
    | [] => Done m
    | o :: l' => let! x := mop_run m o in mops_run (x_map x) l'
    end.

  (** Observers. *)
  (** [get] (205-211) *)
  Definition m_get (m : map_t) (q : qualifier Q) (s : inst P) : outcome (option (val (VS s))) :=
    let! o := find bs m q s in
    match o with
    | Some b => let! v := buf_ref P (tyof s) b in Done (Some v)
    | None => Done None
    end.
  (** [get_evaled] (236-246) *)
  Definition m_get_evaled (m : map_t) (q : qualifier Q) (s : inst P) : outcome (option (outT (VS s))) :=
    let! o := find bs m q s in
    match o with
    | Some b => let! v := buf_ref P (tyof s) b in let! r := sv_eval (VS s) v in Done (Some r)
    | None => Done None
    end.
  (** The value returned by [remove] (227-233). *)
  Definition m_removed (m : map_t) (q : qualifier Q) (s : inst P) : outcome (option (val (VS s))) :=
    let! r := take bs m q s in
    match snd r with
    | Some b => let! v := buf_read_move P (tyof s) b in Done (Some v)
    | None => Done None
    end.
  (** [iter] (263-268) *)
  Fixpoint read_each (t : vty P) (m : map_t) : outcome (list (qualifier Q * val (VT P t))) :=
    match m with
    | [] => Done []
    | e :: m' =>
        let! v := buf_ref P t (e_val e) in
        let! r := read_each t m' in
        Done ((e_qual e, v) :: r)
    end.
  Definition m_iter (m : map_t) (s : inst P) : outcome (list (qualifier Q * val (VS s))) :=
    let! l := slice bs m s in read_each (tyof s) l.
  (** [len], [is_empty] (145-152) *)
  Definition m_len (m : map_t) : nat := length m.
  Definition m_is_empty (m : map_t) : bool := match m with [] => true | _ => false end.

  (** [StatStream::stream_stat] (363-378). The entity and the querier are ignored. *)
  Definition map_stream (m : map_t) (x : qquery Q) (p : pair P) : outcome (pair P) :=
    let! l := slice bs m (p_stat p) in
    ofold (fun p e =>
      if qualifies_as (e_qual e) x
      then let! b := vt_join P (si_ty (p_stat p)) (p_buf p) (e_val e) in Done (Pair (p_stat p) b)
      else Done p) p l.
  (** [query_stat] (343-352), [eval_stat] (354-360) *)
  Definition m_query (m : map_t) (x : qquery Q) (s : inst P) : outcome (val (VS s)) :=
    let! p := pair_new_default P s in
    let! p' := map_stream m x p in
    buf_into P (tyof s) (p_buf p').
  Definition m_eval (m : map_t) (x : qquery Q) (s : inst P) : outcome (outT (VS s)) :=
    let! v := m_query m x s in sv_eval (VS s) v.

  (** [Clone] (25-33) and [Drop] (35-39) of a whole map. *)
  Definition m_clone (m : map_t) : outcome map_t := clone_with (fun s b => vt_clone P (si_ty s) b) m.
  Definition m_drop (m : map_t) : outcome unit := drop_all m.
End Typed.
Arguments MInsert {P Q}.
Arguments MInsertBase {P Q}.
Arguments MGetMut {P Q}.
Arguments MRemove {P Q}.
Arguments MModify {P Q}.
Arguments MModifyWith {P Q}.
Arguments MRemoveAll {P Q}.
Arguments MIterMut {P Q}.
Arguments MClear {P Q}.
Arguments MExtend {P Q}.
Arguments build {P Q}.
Arguments mop_core {P Q}.
Arguments drop_all {P Q}.
Arguments mop_run {P Q}.
Arguments mops_run {P Q}.
Arguments m_get {P Q}.
Arguments m_get_evaled {P Q}.
Arguments m_removed {P Q}.
Arguments read_each {P Q}.
Arguments m_iter {P Q}.
Arguments m_len {P Q}.
Arguments m_is_empty {P Q}.
Arguments map_stream {P Q}.
Arguments m_query {P Q}.
Arguments m_eval {P Q}.
Arguments m_clone {P Q}.
Arguments m_drop {P Q}.
