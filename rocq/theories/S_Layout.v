(** What it means for a value type to be storable, independent of the buffer code. *)
From Coq Require Import ZArith List.
From Verif Require Import M_Outcome M_Layout.
Import ListNotations.
Local Open Scope Z_scope.

(** Representations as Rust has them: every value takes [size] bytes and can be read back,
    and the size is not negative. *)
Definition lawful_repr {A : Type} (r : repr A) : Prop :=
  0 <= l_size (r_lay r) /\
  (forall v, Z.of_nat (length (r_enc r v)) = l_size (r_lay r)) /\
  (forall v, r_dec r (r_enc r v) = v).

(** Small enough and not over-aligned. *)
Definition storable (l : layout) : Prop :=
  l_size l <= 24 /\ (l_align l = 1 \/ l_align l = 2 \/ l_align l = 4 \/ l_align l = 8).

(** Steps on one buffer. *)
Inductive bstep (A : Type) : Type :=
| BRead            (** [as_ref] *)
| BWrite (f : A -> A)   (** [as_mut] *)
| BMove (p : Z).   (** the buffer is moved to address [p] *)
Arguments BRead {A}.
Arguments BWrite {A}.
Arguments BMove {A}.

(** The raw steps: the buffer's address, its bytes and what the reads returned. *)
Fixpoint raw_run {A : Type} (r : repr A) (p : Z) (b : list byte) (l : list (bstep A)) : outcome (Z * list byte * list A) :=
  match l with
  | [] => Done (p, b, [])
  | BRead :: l' =>
      let! v := raw_read r p b in
      let! x := raw_run r p b l' in Done (fst x, v :: snd x)
  | BWrite f :: l' => let! b' := raw_mut r p b f in raw_run r p b' l'
  | BMove p' :: l' => raw_run r p' b l'
  end.
(** The same on a variable of type [A]. *)
Fixpoint var_run {A : Type} (v : A) (l : list (bstep A)) : A * list A :=
  match l with
  | [] => (v, [])
  | BRead :: l' => let (w, o) := var_run v l' in (w, v :: o)
  | BWrite f :: l' => var_run (f v) l'
  | BMove _ :: l' => var_run v l'
  end.
(** [Buffer] is [align(8)] (src/buffer.rs:32): every address it lives at is a multiple of 8. *)
Definition aligned_moves {A : Type} (l : list (bstep A)) : Prop :=
  Forall (fun s => match s with BMove p => p mod 8 = 0 | _ => True end) l.

(** Two bytes of value, two bytes of padding. *)
Definition C25_pair : repr (Z * Z) :=
  Repr _ (Lay 4 2) (fun v => [Some (fst v); None; Some (snd v); None])
    (fun b => match b with [Some x; _; Some y; _] => (x, y) | _ => (0, 0) end).

(** The fields [fs] placed in order from offset [off] on, each at the first multiple of its
    alignment; the last one ends at [e]. *)
Inductive packed : Z -> list layout -> Z -> Prop :=
| packed_nil off : packed off [] off
| packed_cons off f fs at_ e :
    off <= at_ < off + l_align f -> (l_align f | at_) -> packed (at_ + l_size f) fs e ->
    packed off (f :: fs) e.
(** [l] is the layout of a struct of the fields [fs] whose alignment is at least [forced]. *)
Definition struct_of (forced : Z) (fs : list layout) (l : layout) : Prop :=
  forced <= l_align l /\ Forall (fun f => l_align f <= l_align l) fs /\
  (l_align l = forced \/ exists f, In f fs /\ l_align f = l_align l) /\
  exists e, packed 0 fs e /\ e <= l_size l < e + l_align l /\ (l_align l | l_size l).
Definition sane (f : layout) : Prop := 0 <= l_size f /\ 0 < l_align f.
