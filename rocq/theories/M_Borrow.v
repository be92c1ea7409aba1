(** References obtained from a [StatValuePair] (src/stat.rs:317-340).

    [cast] and [is_then_cast] are declared
      [pub fn cast<'t, T: Stat>(&mut self) -> Option<(T, &'t mut T::Value)>],
    so that the lifetime ['t] of the reference is not tied to the borrow of the pair. This file models programs
    with local variables that hold pairs and references, what they do, and what the borrow checker accepts. *)
From Coq Require Import ZArith List Bool Arith.
From Verif Require Import M_Outcome M_Value M_Stat M_Pair.
Import ListNotations.

Section Borrow.
  Variable P : Prog.
  Variable D : StatTypes P.
  Notation T s := (val (VT P (vt_value P s))).

  (** A place holding a pair. [b_lent] is the reference that may access the value, if one has been handed out since
      the pair was last accessed by its owner. This is the rule for [&mut] (an access through one ends all others),
      for references that are never reborrowed. *)
  Record place : Type := Place { b_pair : pair P; b_lent : option nat }.
  (** A reference [&mut T::Value] into the place [f_at], with its identity. *)
  Record refr : Type := Refr { f_at : nat; f_tag : nat }.
  (** Local variables: pairs ([None] once moved out of) and references ([None] if the cast failed); the
      number of the next reference. *)
  Record locals : Type := Locals { l_pairs : nat -> option place; l_refs : nat -> option refr; l_next : nat }.
  Definition start : locals := Locals (fun _ => None) (fun _ => None) 0.

  Definition upd {A} (f : nat -> A) (x : nat) (a : A) : nat -> A := fun y => if Nat.eqb x y then a else f y.
  Definition set_pair (st : locals) (x : nat) (p : option place) : locals :=
    Locals (upd (l_pairs st) x p) (l_refs st) (l_next st).

  (** Statements. Reference variables carry the stat type of the value they refer to. *)
  Inductive cmd : Type :=
  | KNew (x : nat) (s : inst P) (v : T (si_ty s))   (** [x = StatValuePair::new(&s, v)] *)
  | KMove (x y : nat)                               (** [y = x], also returning or pushing [x] *)
  | KInto (x : nat) (s : sty P)                     (** [x.into_result::<S>()] *)
  | KDrop (x : nat)                                 (** the end of the scope of [x] *)
  | KShow (x : nat)                                 (** anything that reads the value through [&x], as [Debug] *)
  | KCast (r x : nat) (s : sty P)                   (** [r = x.cast::<S>()], keeping the reference *)
  | KIs (r x : nat) (o : inst P)                    (** [r = x.is_then_cast(&o)] *)
  | KUpd (r : nat) (s : sty P) (f : T s -> outcome (T s)) (** [if let Some(v) = r { v.set(f(v.get())) }] *)
  | KSkip
  | KSeq (a b : cmd)
  | KIf (a b : cmd)                                 (** a condition that is not modelled *)
  | KLoop (a : cmd).

  (** Handing out a reference to the value in place [x]. *)
  Definition lend (st : locals) (r x : nat) (p : pair P) : locals :=
    Locals (upd (l_pairs st) x (Some (Place p (Some (l_next st))))) (upd (l_refs st) r (Some (Refr x (l_next st)))) (S (l_next st)).
  (** An access of the owner to the pair, with nothing lent afterwards. *)
  Definition owned (st : locals) (r x : nat) (p : pair P) : locals :=
    Locals (upd (l_pairs st) x (Some (Place p None))) (upd (l_refs st) r None) (l_next st).

  (** What a statement that is not composed does. Using a pair that was moved is undefined here; the borrow
      checker excludes it below. *)
  Definition atom (c : cmd) (st : locals) : outcome locals :=
    match c with
    | KNew x s v => let! p := pair_new P s v in Done (set_pair st x (Some (Place p None)))
    | KMove x y =>
        match l_pairs st x with
        | Some b => Done (set_pair (set_pair st x None) y (Some (Place (b_pair b) None)))
        | None => UB
        end
    | KInto x s =>
        match l_pairs st x with
        | Some b => let! _ := pair_into_result D (b_pair b) s in Done (set_pair st x None)
        | None => UB
        end
    | KDrop x => match l_pairs st x with Some _ => Done (set_pair st x None) | None => UB end
    | KShow x =>
        match l_pairs st x with Some b => Done (set_pair st x (Some (Place (b_pair b) None))) | None => UB end
    | KCast r x s =>
        match l_pairs st x with
        | Some b =>
            let! o := pair_cast D (b_pair b) s in
            match o with Some _ => Done (lend st r x (b_pair b)) | None => Done (owned st r x (b_pair b)) end
        | None => UB
        end
    | KIs r x o =>
        match l_pairs st x with
        | Some b =>
            let! v := pair_is_then_cast D (b_pair b) o in
            match v with Some _ => Done (lend st r x (b_pair b)) | None => Done (owned st r x (b_pair b)) end
        | None => UB
        end
    | KUpd r s f =>
        match l_refs st r with
        | None => Done st
        | Some q =>
            match l_pairs st (f_at q) with
            | Some b =>
                match b_lent b with
                | Some t =>
                    if Nat.eqb t (f_tag q) then
                      let! v := cast_val P (vt_value P s) (p_buf (b_pair b)) in
                      let! v' := f v in
                      Done (set_pair st (f_at q) (Some (Place (pair_write (b_pair b) s v') (b_lent b))))
                    else UB
                | None => UB
                end
            | None => UB
            end
        end
    | _ => Done st
    end.
  Definition is_atom (c : cmd) : Prop :=
    match c with KSeq _ _ | KIf _ _ | KLoop _ => False | _ => True end.

  (** Executions; a panic or undefined behaviour ends one. *)
  Inductive exec : cmd -> locals -> outcome locals -> Prop :=
  | EAtom c st : is_atom c -> exec c st (atom c st)
  | ESeq a b st st' r : exec a st (Done st') -> exec b st' r -> exec (KSeq a b) st r
  | ESeqStop a b st r : exec a st r -> (forall st', r <> Done st') -> exec (KSeq a b) st r
  | EIfL a b st r : exec a st r -> exec (KIf a b) st r
  | EIfR a b st r : exec b st r -> exec (KIf a b) st r
  | ELoopEnd a st : exec (KLoop a) st (Done st)
  | ELoop a st st' r : exec a st (Done st') -> exec (KLoop a) st' r -> exec (KLoop a) st r
  | ELoopStop a st r : exec a st r -> (forall st', r <> Done st') -> exec (KLoop a) st r.

  (** ** The borrow checker *)

  (** What is known at a point: the pairs that are there and, for each reference variable, the pair it is
      borrowed from and the stat type. *)
  Record known : Type := Known { k_here : nat -> bool; k_refs : nat -> option (nat * sty P) }.
  Definition nothing : known := Known (fun _ => false) (fun _ => None).

  (** How the signatures tie the reference to the pair: [Bound] is [fn cast<T>(&mut self) -> Option<(T, &mut T::Value)>];
      [Unbound] is the actual one, whose reference may be given any lifetime, even ['static]. *)
  Inductive signature := Bound | Unbound.
  (** After an access to pair [x] the references borrowed from it may no longer be used. *)
  Definition ends (g : signature) (x : nat) (k : known) : known :=
    match g with
    | Bound => Known (k_here k) (fun r => match k_refs k r with
                                          | Some (y, s) => if Nat.eqb x y then None else Some (y, s)
                                          | None => None end)
    | Unbound => k
    end.
  Definition here (k : known) (x : nat) (b : bool) : known := Known (upd (k_here k) x b) (k_refs k).
  Definition borrows (k : known) (r x : nat) (s : sty P) : known := Known (k_here k) (upd (k_refs k) r (Some (x, s))).
  (** Forgetting is allowed. *)
  Definition less (k k' : known) : Prop :=
    (forall x, k_here k' x = true -> k_here k x = true) /\
    (forall r q, k_refs k' r = Some q -> k_refs k r = Some q).

  Inductive accepted (g : signature) : known -> cmd -> known -> Prop :=
  | ANew k x s v : accepted g k (KNew x s v) (here (ends g x k) x true)
  | AMove k x y : k_here k x = true -> accepted g k (KMove x y) (here (here (ends g y (ends g x k)) x false) y true)
  | AInto k x s : k_here k x = true -> accepted g k (KInto x s) (here (ends g x k) x false)
  | ADrop k x : k_here k x = true -> accepted g k (KDrop x) (here (ends g x k) x false)
  | AShow k x : k_here k x = true -> accepted g k (KShow x) (ends g x k)
  | ACast k r x s : k_here k x = true -> accepted g k (KCast r x s) (borrows (ends g x k) r x s)
  | AIsCast k r x o : k_here k x = true -> accepted g k (KIs r x o) (borrows (ends g x k) r x (si_ty o))
  | AUpd k r s f x : k_refs k r = Some (x, s) -> accepted g k (KUpd r s f) k
  | ASkip k : accepted g k KSkip k
  | ASeq k k' k'' a b : accepted g k a k' -> accepted g k' b k'' -> accepted g k (KSeq a b) k''
  | AIf k k' a b : accepted g k a k' -> accepted g k b k' -> accepted g k (KIf a b) k'
  | ALoop k a : accepted g k a k -> accepted g k (KLoop a) k
  | ALess k k1 k2 k' c : less k k1 -> accepted g k1 c k2 -> less k2 k' -> accepted g k c k'.

  (** [match_stat!] (src/lib.rs:220-245) on a variable: every arm is [if let Some((_, r)) = x.cast::<S>() { body }] or
      the like with [is_then_cast]; the arms after the first that matches are not tried. *)
  Inductive varm : Type :=
  | VBind (s : sty P) (body : cmd)
  | VIs (o : inst P) (body : cmd).
  Definition varm_ty (a : varm) : sty P := match a with VBind s _ => s | VIs o _ => si_ty o end.
  Definition varm_body (a : varm) : cmd := match a with VBind _ b | VIs _ b => b end.
  Definition varm_cast (r x : nat) (a : varm) : cmd := match a with VBind s _ => KCast r x s | VIs o _ => KIs r x o end.
  Fixpoint match_var (r x : nat) (l : list varm) : cmd :=
    match l with
    | [] => KSkip
    | a :: l' => KSeq (varm_cast r x a) (KIf (varm_body a) (match_var r x l'))
    end.

End Borrow.
Arguments Place {P}.
Arguments b_pair {P}.
Arguments b_lent {P}.
Arguments l_pairs {P}.
Arguments l_refs {P}.
Arguments l_next {P}.
Arguments start {P}.
Arguments set_pair {P}.
Arguments lend {P}.
Arguments owned {P}.
Arguments KNew {P}.
Arguments KMove {P}.
Arguments KInto {P}.
Arguments KDrop {P}.
Arguments KShow {P}.
Arguments KCast {P}.
Arguments KIs {P}.
Arguments KUpd {P}.
Arguments KSkip {P}.
Arguments KSeq {P}.
Arguments KIf {P}.
Arguments KLoop {P}.
Arguments atom {P}.
Arguments is_atom {P}.
Arguments exec {P}.
Arguments k_here {P}.
Arguments k_refs {P}.
Arguments nothing {P}.
Arguments ends {P}.
Arguments here {P}.
Arguments borrows {P}.
Arguments less {P}.
Arguments accepted {P}.
Arguments VBind {P}.
Arguments VIs {P}.
Arguments varm_ty {P}.
Arguments varm_body {P}.
Arguments varm_cast {P}.
Arguments match_var {P}.
