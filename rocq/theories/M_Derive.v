(** [#[derive(Stat)]] (derive/src/lib.rs). *)
From Coq Require Import String ZArith List Bool.
From Verif Require Import M_Outcome.
Import ListNotations.
Local Open Scope Z_scope.

(** A fieldless variant: its name, the integer literal after [=] if there is one, and whether it
    carries [#[default]]. How they are read from the tokens, and what the macro refuses, is in
    M_Macro.v. *)
Record variant : Type := Variant { vr_name : string; vr_disc : option Z; vr_default : bool }.

Definition u64_max : Z := 18446744073709551615.

(** The closure producing [indices] (119-139). [None]: the macro aborts, because the literal does
    not fit [u64] (131-133) or because [last += 1] overflows in a macro compiled with overflow
    checks ([oc]); without them it wraps. *)
Fixpoint indices_from (oc : bool) (last : Z) (l : list variant) : option (list Z) :=
  match l with
  | [] => Some []
  | v :: l' =>
      match vr_disc v with
      | None =>
          if u64_max <? last + 1
          then if oc then None else option_map (cons 0) (indices_from oc 0 l')
          else option_map (cons (last + 1)) (indices_from oc (last + 1) l')
      | Some num =>
          if (0 <=? num) && (num <=? u64_max)
          then option_map (cons num) (indices_from oc num l')
          else None
      end
  end.
Definition indices (oc : bool) (l : list variant) : option (list Z) := indices_from oc 0 l.

(** The generated functions. A value of the enum is the position of its variant in [l]; [ix] are
    the indices computed above. *)
Section Generated.
  Variable l : list variant.
  Variable ix : list Z.

  (** [as_index] (155-159) *)
  Definition d_as_index (k : nat) : Z := nth k ix 0.
  (** The arms of [from_index] (161-166) are tried in order. *)
  Fixpoint arms (k : nat) (js : list Z) (i : Z) : option nat :=
    match js with
    | [] => None
    | j :: js' => if j =? i then Some k else arms (S k) js' i
    end.
  (** The last arm (101-114, 164): the panic, or the variant of the last [#[default]]. *)
  Fixpoint default_arm (k : nat) (vs : list variant) (d : outcome nat) : outcome nat :=
    match vs with
    | [] => d
    | v :: vs' => default_arm (S k) vs' (if vr_default v then Done k else d)
    end.
  Definition d_from_index (i : Z) : outcome nat :=
    match arms 0 ix i with
    | Some k => Done k
    | None => default_arm 0 l (Panics PBadIndex)
    end.
  (** [name] (145-149) *)
  Definition d_name (k : nat) : string := nth k (map vr_name l) EmptyString.
  (** [values] (168-170) *)
  Definition d_values : list nat := seq 0 (length l).
  (** What the registry and the vtable see of the generated impl: name and index of every value
      (src/plugin.rs:259-263), and [T::from_index(id).name()] (src/stat.rs:40, 71, 210-212). *)
  Definition d_named : list (string * Z) := map (fun k => (d_name k, d_as_index k)) d_values.
  Definition d_vtable_name (i : Z) : outcome string := let! k := d_from_index i in Done (d_name k).
End Generated.

(** The unit struct (69-96): one value, index 0, any index accepted. *)
Definition unit_as_index (_ : unit) : Z := 0.
Definition unit_from_index (_ : Z) : outcome unit := Done tt.
Definition unit_values : list unit := [tt].
