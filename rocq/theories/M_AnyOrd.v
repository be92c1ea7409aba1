(** [StatMap] (src/stat_map.rs) used with an [Ord] for the flags that keeps no law: [Ord] is a
    safe trait, so an implementation may answer anything, differently each time it is asked, and
    may panic. Comparisons of stats are the library's own (src/stat.rs:151-155) and lawful. *)
From Coq Require Import ZArith Arith List Bool.
From Verif Require Import M_Outcome M_Value M_Qualifier M_Search M_Stat M_StatMap.
Import ListNotations.

(** The answer of the [n]-th comparison made by one call; [None] is a panic. *)
Definition asked (A B : Type) : Type := nat -> A -> B -> option comparison.

(** [slice::binary_search_by] of std with such a closure: [f n i] is its answer about element [i]
    when called for the [n]-th time, [len] the length of the slice; [None]: the closure panicked.
    The two implementations are those of M_Search.v. *)
Definition searcher : Type := (nat -> nat -> option comparison) -> nat -> option bsres.

Fixpoint any_old_loop (fuel : nat) (f : nat -> nat -> option comparison) (n left right : nat) : option bsres :=
  match fuel with
  | O => Some (inr left)
  | S fuel =>
      if left <? right then
        let mid := left + (right - left) / 2 in
        match f n mid with
        | None => None
        | Some Lt => any_old_loop fuel f (S n) (mid + 1) right
        | Some Gt => any_old_loop fuel f (S n) left mid
        | Some Eq => Some (inl mid)
        end
      else Some (inr left)
  end.
Definition any_old : searcher := fun f len => any_old_loop (S len) f 0 0 len.

Fixpoint any_new_loop (fuel : nat) (f : nat -> nat -> option comparison) (n base size : nat) : option (nat * nat) :=
  match fuel with
  | O => Some (n, base)
  | S fuel =>
      if 1 <? size then
        let half := size / 2 in
        let mid := base + half in
        match f n mid with
        | None => None
        | Some c => any_new_loop fuel f (S n) (match c with Gt => base | _ => mid end) (size - half)
        end
      else Some (n, base)
  end.
Definition any_new : searcher := fun f len =>
  if len =? 0 then Some (inr 0) else
  match any_new_loop len f 0 0 len with
  | None => None
  | Some (n, base) =>
      match f n base with
      | None => None
      | Some Eq => Some (inl base)
      | Some Lt => Some (inr (base + 1))
      | Some Gt => Some (inr base)
      end
  end.

(** The same search with a pure closure (M_Search.v). *)
Definition pure_search (sr : searcher) (l : list comparison) : bsres :=
  match sr (fun _ i => Some (at_cmp l i)) (length l) with Some r => r | None => inr 0 end.

(** [slice::sort_by] with such a closure: the contents left in the vector and whether the call
    returned; it may also panic on its own when it notices that the order is none (std). *)
Definition sorter : Type := forall A : Type, asked A A -> list A -> list A * bool.

(** Insertion sort, what std runs on short slices: the elements are inserted from the left into
    the sorted part before them, from its end. [rev_insert] inserts into the reversed sorted
    part; a panic leaves the element in front of those it was not yet moved past. *)
Fixpoint rev_insert {A} (c : asked A A) (n : nat) (x : A) (l : list A) : nat * list A * bool :=
  match l with
  | [] => (n, [x], true)
  | y :: l' =>
      match c n x y with
      | None => (n, x :: y :: l', false)
      | Some Lt => let r := rev_insert c (S n) x l' in (fst (fst r), y :: snd (fst r), snd r)
      | Some _ => (S n, x :: y :: l', true)
      end
  end.
Fixpoint insertion_loop {A} (c : asked A A) (n : nat) (done todo : list A) : list A * bool :=
  match todo with
  | [] => (rev done, true)
  | x :: todo' =>
      let r := rev_insert c n x done in
      if snd r then insertion_loop c (fst (fst r)) (snd (fst r)) todo' else (rev (snd (fst r)) ++ todo', false)
  end.
Definition insertion : sorter := fun A c l => insertion_loop c 0 [] l.

(** Merging two sorted runs, the other half of std's stable sort: [sort_by] splits into runs, sorts
    the short ones by insertion and merges. Here a binary merge sort of depth [fuel]; a panic
    while merging leaves the merged part and the rest of both runs. *)
Fixpoint merge_loop {A} (c : asked A A) (fuel n : nat) (a b : list A) : nat * list A * bool :=
  match fuel with
  | O => (n, a ++ b, false)
  | S fuel =>
      match a, b with
      | [], _ => (n, b, true)
      | _, [] => (n, a, true)
      | x :: a', y :: b' =>
          match c n y x with
          | None => (n, a ++ b, false)
          | Some Lt => let r := merge_loop c fuel (S n) a b' in (fst (fst r), y :: snd (fst r), snd r)
          | Some _ => let r := merge_loop c fuel (S n) a' b in (fst (fst r), x :: snd (fst r), snd r)
          end
      end
  end.
Fixpoint merge_sort {A} (c : asked A A) (fuel n : nat) (l : list A) : nat * list A * bool :=
  match fuel with
  | O => (n, l, length l <=? 1)
  | S fuel =>
      if length l <=? 1 then (n, l, true) else
      let k := length l / 2 in
      let r1 := merge_sort c fuel n (firstn k l) in
      if snd r1 then
        let r2 := merge_sort c fuel (fst (fst r1)) (skipn k l) in
        if snd r2 then merge_loop c (S (length l)) (fst (fst r2)) (snd (fst r1)) (snd (fst r2))
        else (fst (fst r2), snd (fst r1) ++ snd (fst r2), false)
      else (fst (fst r1), snd (fst r1) ++ skipn k l, false)
  end.
Definition merging : sorter := fun A c l => let r := merge_sort c (length l) 0 l in (snd (fst r), snd r).

Section AnyOrd.
  Variable P : Prog.
  Variable Q : QFlag.
  (** The std in use. *)
  Variable sr : searcher.
  Variable srt : sorter.
  Notation tyof s := (vt_value P (si_ty s)).
  Notation VS s := (VT P (tyof s)).
  Notation map_t := (map_t P Q).
  Definition flag_order : Type := asked (qualifier Q) (qualifier Q).
  Notation bs := (pure_search sr).

  (** [(s, q).cmp(&(stat, qualifier))] (src/stat_map.rs:161): qualifiers are compared only when the stats
      are equal. *)
  Definition any_key_cmp (c : flag_order) (n : nat) (s : inst P) (q : qualifier Q) (s' : inst P) (q' : qualifier Q) : option comparison :=
    match inst_cmp s s' with Eq => c n q q' | r => Some r end.
  (** [binary_search] (155-163). *)
  Definition any_search (c : flag_order) (m : map_t) (q : qualifier Q) (s : inst P) : option bsres :=
    sr (fun n i => match nth_error m i with
                   | Some e => any_key_cmp c n (e_stat e) (e_qual e) s q
                   | None => None
                   end) (length m).
  (** [a.stat.cmp(&b.stat).then(a.qualifier.cmp(&b.qualifier))] (97-99): [then] takes a value, so the
      qualifiers are always compared. *)
  Definition any_entry_cmp (c : flag_order) : asked (entry P Q (buffer P)) (entry P Q (buffer P)) := fun n a b =>
    match c n (e_qual a) (e_qual b) with
    | None => None
    | Some r => Some (match inst_cmp (e_stat a) (e_stat b) with Eq => r | r' => r' end)
    end.

  (** The methods of M_StatMap.v. Those that search get the answer [r] of this search; a panic
      of the order in a search comes before any change of the map ([None]). [extend]
      (119-132) sorts; the second component tells whether it returned. *)
  Definition any_cop (c : flag_order) (m : map_t) (o : cop P Q (buffer P)) : outcome (option (effect P Q (buffer P) * bool)) :=
    let at_key q s :=
      match any_search c m q s with
      | None => Done None
      | Some r => let! x := cop_run (fun _ => r) m o in Done (Some (x, true))
      end in
    match o with
    | CPut q s v => let! _ := v in at_key q s
    | CUpdate q s _ | CUpsert q s _ _ | CTake q s => at_key q s
    | CExtend l =>
        let! l := l in
        let r := srt _ (any_entry_cmp c) (m ++ l) in
        Done (Some (Effect (fst r) (map e_val l) None [] [], snd r))
    | CDrain _ | CUpdateSlice _ _ | CClear => let! x := cop_run bs m o in Done (Some (x, true))
    end.
  (** As [mop_run]: what is taken out is read or dropped. *)
  Definition any_mop (c : flag_order) (m : map_t) (o : mop P Q) : outcome (option (effect P Q (buffer P) * bool)) :=
    let! r := any_cop c m (mop_core o) in
    match r, o with
    | Some (x, _), MRemove q s =>
        match x_returned x with
        | Some b => let! _ := buf_read_move P (tyof s) b in Done r
        | None => Done r
        end
    | Some _, MRemoveAll s => let! l := slice bs m s in let! _ := drop_all l in Done r
    | Some _, MClear => let! _ := drop_all m in Done r
    | _, _ => Done r
    end.

  (** A call, the answers its comparisons get, and whether the caller catches a panic of the order
      and goes on using the map. Panics of other code end the run (for those see M_Unwind.v). *)
  Record acall : Type := ACall { a_op : mop P Q; a_order : flag_order; a_catch : bool }.
  Definition any_step (m : map_t) (k : acall) : outcome map_t :=
    let! r := any_mop (a_order k) m (a_op k) in
    match r with
    | None => if a_catch k then Done m else Panics PUser
    | Some (x, returned) => if returned || a_catch k then Done (x_map x) else Panics PUser
    end.
  Fixpoint any_run (m : map_t) (l : list acall) : outcome map_t :=
    match l with
    | [] => Done m
    | k :: l' => let! m' := any_step m k in any_run m' l'
    end.

  (** [get] (205-211), [get_evaled] (236-246), the value returned by [remove] (227-233). *)
  Definition any_find (c : flag_order) (m : map_t) (q : qualifier Q) (s : inst P) : outcome (option (buffer P)) :=
    match any_search c m q s with
    | None => Panics PUser
    | Some r => find (fun _ => r) m q s
    end.
  Definition any_get (c : flag_order) (m : map_t) (q : qualifier Q) (s : inst P) : outcome (option (val (VS s))) :=
    let! o := any_find c m q s in
    match o with
    | Some b => let! v := buf_ref P (tyof s) b in Done (Some v)
    | None => Done None
    end.
  Definition any_get_evaled (c : flag_order) (m : map_t) (q : qualifier Q) (s : inst P) : outcome (option (outT (VS s))) :=
    let! o := any_get c m q s in
    match o with
    | Some v => let! r := sv_eval (VS s) v in Done (Some r)
    | None => Done None
    end.
End AnyOrd.
Arguments any_key_cmp {P Q}.
Arguments any_search {P Q}.
Arguments any_entry_cmp {P Q}.
Arguments any_cop {P Q}.
Arguments any_mop {P Q}.
Arguments ACall {P Q}.
Arguments a_op {P Q}.
Arguments a_order {P Q}.
Arguments a_catch {P Q}.
Arguments any_step {P Q}.
Arguments any_run {P Q}.
Arguments any_find {P Q}.
Arguments any_get {P Q}.
Arguments any_get_evaled {P Q}.
