(** Programs for the examples about references into pairs. *)
From Coq Require Import ZArith List Bool.
From Verif Require Import M_Outcome M_Value M_Stat M_Pair M_Borrow S_Demo.
Import ListNotations.
Local Open Scope Z_scope.

(** The closures in a program have no undefined behaviour of their own. *)
Fixpoint closures_sound {P} (c : cmd P) : Prop :=
  match c with
  | KUpd _ _ f => forall v, f v <> UB
  | KSeq a b | KIf a b => closures_sound a /\ closures_sound b
  | KLoop a => closures_sound a
  | _ => True
  end.

Definition new_hp (x : nat) (n : Z) : cmd demo := @KNew demo x hp (num n).
Definition new_alive (x : nat) (b : bool) : cmd demo := @KNew demo x alive b.
Definition cast_hp (r x : nat) : cmd demo := @KCast demo r x Hp.
Definition is_hp (r x : nat) : cmd demo := @KIs demo r x hp.
Definition add_to (r : nat) (n : Z) : cmd demo := @KUpd demo r Hp (fun v => sv_add (VT demo VNum) v n).

(** Two mutable references to one value: [let a = x.cast::<Hp>(); let b = x.cast::<Hp>(); *a += 1;] *)
Definition two_refs : cmd demo :=
  KSeq (new_hp 0 1) (KSeq (cast_hp 0 0) (KSeq (cast_hp 1 0) (add_to 0 1))).
(** A reference to a value that was moved out: [let a = x.is_then_cast(&hp); x.into_result::<Hp>(); *a += 1;] *)
Definition after_into : cmd demo :=
  KSeq (new_hp 0 1) (KSeq (is_hp 0 0) (KSeq (@KInto demo 0 Hp) (add_to 0 1))).
(** A reference returned from a function whose local variable it points to. *)
Definition after_scope : cmd demo :=
  KSeq (new_hp 0 1) (KSeq (cast_hp 0 0) (KSeq (KDrop 0) (add_to 0 1))).
(** A reference to a value that was replaced by one of another type. *)
Definition after_replace : cmd demo :=
  KSeq (new_hp 0 1) (KSeq (cast_hp 0 0) (KSeq (new_alive 0 true) (add_to 0 1))).
(** A program that uses every reference before touching its pair again. *)
Definition in_turn : cmd demo :=
  KSeq (new_hp 0 1) (KSeq (new_hp 1 2)
    (KSeq (KLoop (KSeq (cast_hp 0 0) (KSeq (cast_hp 1 1) (KSeq (add_to 0 1) (KSeq (add_to 1 2) (KShow 0))))))
          (KSeq (match_var 2 0 [VIs alive KSkip; VBind (P := demo) Hp (add_to 2 5)]) (@KInto demo 0 Hp)))).
(** The value of the pair in variable [x], as an integer. *)
Definition base_of (st : locals demo) (x : nat) : outcome Z :=
  match l_pairs st x with
  | Some b => let! v := cast_val demo VNum (p_buf (b_pair b)) in sv_eval (VT demo VNum) v
  | None => UB
  end.
