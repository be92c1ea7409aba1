(** What Rust itself says about the enums the macro is applied to. *)
From Coq Require Import String ZArith List Bool.
From Verif Require Import M_Outcome M_Derive.
Import ListNotations.
Local Open Scope Z_scope.

(** The discriminants of the language reference: the first implicit one is 0, every other implicit
    one is one more than its predecessor's. *)
Fixpoint discriminants_from (next : Z) (l : list variant) : list Z :=
  match l with
  | [] => []
  | v :: l' => let d := match vr_disc v with Some d => d | None => next end in d :: discriminants_from (d + 1) l'
  end.
Definition discriminants (l : list variant) : list Z := discriminants_from 0 l.

(** The compiler demands distinct names and distinct discriminants that fit the representation
    ([u64] is the largest unsigned one the macro allows). *)
Record accepted (l : list variant) : Prop := {
  acc_names : NoDup (map vr_name l);
  acc_distinct : NoDup (discriminants l);
  acc_fit : Forall (fun d => 0 <= d <= u64_max) (discriminants l);
  acc_length : Z.of_nat (length l) <= u64_max
}.

(** The number of variants before the first explicit discriminant. *)
Fixpoint leading (l : list variant) : nat :=
  match l with
  | [] => O
  | v :: l' => match vr_disc v with None => S (leading l') | Some _ => O end
  end.
(** The discriminants from the first explicit one on. *)
Definition tail_discriminants (l : list variant) : list Z := skipn (leading l) (discriminants l).
(** No later variant has the discriminant that comes right after the leading run. *)
Definition gap (l : list variant) : Prop := leading l = O \/ ~ In (Z.of_nat (leading l)) (tail_discriminants l).

(** Example enums: [{ A, B = 1 }], the one of tests/derive.rs, and [{ A, B, C = 5, D, #[default] E = 3 }]. *)
Definition imp (n : string) : variant := Variant n None false.
Definition exp (n : string) (d : Z) : variant := Variant n (Some d) false.
Definition enum_ab : list variant := [imp "A"; exp "B" 1]%string.
Definition enum_num : list variant := [exp "E" 2; exp "F" 0; imp "G"; exp "H" 3]%string.
Definition enum_def : list variant := [imp "A"; imp "B"; exp "C" 5; imp "D"; Variant "E" (Some 3) true]%string.
