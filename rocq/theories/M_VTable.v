(** Which tables [Stat::vtable] can return in safe Rust (src/stat.rs:16-21, 109-116, 184-189), and what
    a [StatMap] does when a stat has several tables or shares one. *)
From Coq Require Import ZArith Arith List Bool.
From Verif Require Import M_Outcome M_Value M_Qualifier M_Search M_Stat M_StatMap M_AnyOrd.
Import ListNotations.

(** As much of Rust's types as is needed to tell subtypes from equal types: a type of one's own,
    [fn(&'static u8)] or [for<'a> fn(&'a u8)], and a wrapper [struct W<T>(PhantomData<T>)]. All are
    ['static] and have a [TypeId] of their own. *)
Inductive region : Type := ForAny | Static.
Inductive rty : Type := Named (n : nat) | FnRef (r : region) | Wrap (t : rty).
Definition rty_dec (a b : rty) : {a = b} + {a <> b}.
Proof. repeat decide equality. Defined.
(** Subtyping (the reference, "subtyping and variance"): a function that takes any reference is one
    that takes a static one; [W] is covariant. *)
Fixpoint sub (a b : rty) : bool :=
  match a, b with
  | Named n, Named m => n =? m
  | FnRef ForAny, FnRef _ => true
  | FnRef Static, FnRef Static => true
  | Wrap a, Wrap b => sub a b
  | _, _ => false
  end.

(** The variance of [T] in [&'static StatVTable<T>]. The field [p: PhantomData<T>] (src/stat.rs:20) makes
    it covariant; [PhantomData<fn(T) -> T>] would make it invariant. *)
Inductive variance : Type := Covariant | Invariant.
Definition declared : variance := Covariant.
(** A value of type [&'static StatVTable<a>] can be returned as [&'static StatVTable<b>]. *)
Definition coerces (v : variance) (a b : rty) : bool :=
  match v with
  | Covariant => sub a b
  | Invariant => if rty_dec a b then true else false
  end.

(** A table: the type it was made for, by [StatVTable::of::<T>] or [no_serialize::<T>] (src/stat.rs:34-96),
    the only ways to make one, and which of the tables for this type it is. *)
Definition table : Type := (rty * nat)%type.
(** What [vtable()] returns: a table, static or leaked, or the result of another type's [vtable()]. *)
Inductive vexpr : Type := Table (t : table) | Asks (T : rty).
(** [T] where the type of the expression is [&'static StatVTable<T>]. *)
Definition expr_owner (e : vexpr) : rty := match e with Table t => fst t | Asks T => T end.

(** A crate using the library. Types that implement [Stat] are not told from others; [cr_body T n] is
    what the [n]-th call of [T::vtable()] returns, [cr_addr] where a table lies. *)
Record crate : Type := {
  cr_vty : Type;
  cr_vty_dec : forall a b : cr_vty, {a = b} + {a <> b};
  cr_VT : cr_vty -> StatValue;
  cr_size : cr_vty -> Z;
  cr_align : cr_vty -> Z;
  cr_value : rty -> cr_vty;
  cr_body : rty -> nat -> vexpr;
  cr_addr : table -> Z
}.
(** The compiler accepts the bodies of [vtable()]: their types fit [fn vtable() -> &'static
    StatVTable<Self>] (189). *)
Definition accepted (v : variance) (c : crate) : Prop :=
  forall T n, coerces v (expr_owner (cr_body c T n)) T = true.
(** The tables [T::vtable()] may return. *)
Inductive gives (c : crate) : rty -> table -> Prop :=
| gives_own T n t : cr_body c T n = Table t -> gives c T t
| gives_asked T n U t : cr_body c T n = Asks U -> gives c U t -> gives c T t.

(** The program with a "stat type" for each table; the functions in a table are those of the type it
    was made for. *)
Definition table_dec (a b : table) : {a = b} + {a <> b}.
Proof. repeat decide equality. Defined.
Definition prog_of (c : crate) : Prog := {|
  vty := cr_vty c; vty_dec := cr_vty_dec c; VT := cr_VT c; v_size := cr_size c; v_align := cr_align c;
  sty := table; sty_dec := table_dec; vt_value := fun t => cr_value c (fst t); vt_addr := cr_addr c |}.

Section Calls.
  Variable c : crate.
  Variable Q : QFlag.
  Variable sr : searcher.
  Variable srt : sorter.
  Notation P := (prog_of c).
  Notation bs := (pure_search sr).
  Notation map_t := (map_t P Q).

  (** A stat as a generic method sees it: its type [S] and what [as_entry] (src/stat.rs:214-219) returns
      in this call. Every method calls [as_entry] once. *)
  Record vstat : Type := VStat { vs_impl : rty; vs_table : table; vs_index : Z }.
  Definition vinst (s : vstat) : inst P := Inst (P:=P) (vs_table s) (vs_index s).
  (** [S::Value] *)
  Definition vval (s : vstat) : cr_vty c := cr_value c (vs_impl s).
  Notation VV s := (VT P (vval s)).

  (** The methods of M_StatMap.v, reading and writing buffers as [S::Value]. In [extend] every item has
      an entry of its own. *)
  Inductive vop : Type :=
  | VInsert (q : qualifier Q) (s : vstat) (v : val (VV s))
  | VInsertBase (q : qualifier Q) (s : vstat) (b : baseT (VV s))
  | VGetMut (q : qualifier Q) (s : vstat) (f : val (VV s) -> outcome (val (VV s)))
  | VRemove (q : qualifier Q) (s : vstat)
  | VModify (q : qualifier Q) (s : vstat) (o : stat_op (VV s))
  | VModifyWith (q : qualifier Q) (s : vstat) (f : val (VV s) -> outcome (val (VV s)))
  | VRemoveAll (s : vstat)
  | VIterMut (s : vstat) (f : qualifier Q -> val (VV s) -> outcome (val (VV s)))
  | VClear
  | VExtend (T : rty) (l : list (qualifier Q * (table * Z) * val (VT P (cr_value c T)))).

  Fixpoint vbuild (T : rty) (l : list (qualifier Q * (table * Z) * val (VT P (cr_value c T)))) : outcome map_t :=
    match l with
    | [] => Done []
    | (q, (t, i), v) :: l' =>
        let! b := buf_from P (cr_value c T) v in
        let! r := vbuild T l' in
        Done (Entry (Inst (P:=P) t i) q b :: r)
    end.
  Definition vop_core (o : vop) : cop P Q (buffer P) :=
    match o with
    | VInsert q s v => CPut q (vinst s) (buf_from P (vval s) v)
    | VInsertBase q s b => CPut q (vinst s) (buf_from P (vval s) (sv_from_base (VV s) b))
    | VGetMut q s f => CUpdate q (vinst s) (fun b => buf_mut P (vval s) b f)
    | VRemove q s => CTake q (vinst s)
    | VModify q s o =>
        CUpsert q (vinst s) (fun b => buf_mut P (vval s) b (write_to o))
                (let! v := into_stat o in buf_from P (vval s) v)
    | VModifyWith q s f =>
        CUpsert q (vinst s) (fun b => buf_mut P (vval s) b f)
                (let! v := f (sv_default (VV s)) in buf_from P (vval s) v)
    | VRemoveAll s => CDrain (vinst s)
    | VIterMut s f => CUpdateSlice (vinst s) (fun q b => buf_mut P (vval s) b (f q))
    | VClear => CClear
    | VExtend T l => CExtend (vbuild T l)
    end.
  Definition vop_run (o : flag_order Q) (m : map_t) (x : vop) : outcome (option (effect P Q (buffer P) * bool)) :=
    let! r := any_cop sr srt o m (vop_core x) in
    match r, x with
    | Some (e, _), VRemove q s =>
        match x_returned e with
        | Some b => let! _ := buf_read_move P (vval s) b in Done r
        | None => Done r
        end
    | Some _, VRemoveAll s => let! l := slice bs m (vinst s) in let! _ := drop_all l in Done r
    | Some _, VClear => let! _ := drop_all m in Done r
    | _, _ => Done r
    end.
  (** A panic ends the run. *)
  Fixpoint vrun (m : map_t) (l : list (flag_order Q * vop)) : outcome map_t :=
    match l with
    | [] => Done m
    | (o, x) :: l' =>
        let! r := vop_run o m x in
        match r with
        | Some (e, true) => vrun (x_map e) l'
        | _ => Panics PUser
        end
    end.

  (** Observers: [get], [iter], [query_stat], and [StatValuePair::into_result] (src/stat.rs:343-350; [cast] and
      [is_then_cast] read at the same type after the same test). *)
  Definition v_get (o : flag_order Q) (m : map_t) (q : qualifier Q) (s : vstat) : outcome (option (val (VV s))) :=
    let! r := any_find sr o m q (vinst s) in
    match r with
    | Some b => let! v := buf_ref P (vval s) b in Done (Some v)
    | None => Done None
    end.
  Definition v_iter (m : map_t) (s : vstat) : outcome (list (qualifier Q * val (VV s))) :=
    let! l := slice bs m (vinst s) in read_each (P:=P) (vval s) l.
  Definition v_new (s : vstat) (v : val (VV s)) : outcome (pair P) :=
    let! b := buf_from P (vval s) v in Done (Pair (vinst s) b).
  Definition v_into (p : pair P) (s : vstat) : outcome (option (val (VV s))) :=
    if (vt_addr P (si_ty (p_stat p)) =? vt_addr P (vs_table s))%Z
    then let! v := buf_into P (vval s) (p_buf p) in Done (Some v)
    else Done None.
  Definition v_query (m : map_t) (x : qquery Q) (s : vstat) : outcome (val (VV s)) :=
    let! p := v_new s (sv_default (VV s)) in
    let! p' := map_stream bs m x p in
    buf_into P (vval s) (p_buf p').
End Calls.
Arguments vinst {c}.
Arguments VInsert {c Q}.
Arguments VInsertBase {c Q}.
Arguments VGetMut {c Q}.
Arguments VRemove {c Q}.
Arguments VModify {c Q}.
Arguments VModifyWith {c Q}.
Arguments VRemoveAll {c Q}.
Arguments VIterMut {c Q}.
Arguments VClear {c Q}.
Arguments VExtend {c Q}.
Arguments vbuild {c Q}.
Arguments vop_core {c Q}.
Arguments vop_run {c Q}.
Arguments vrun {c Q}.
Arguments v_get {c Q}.
Arguments v_iter {c Q}.
Arguments v_new {c}.
Arguments v_into {c}.
Arguments v_query {c Q}.
