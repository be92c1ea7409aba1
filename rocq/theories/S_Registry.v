(** What registration is meant to do, as a partial function from names to stats. *)
From Coq Require Import ZArith List Bool String.
From Verif Require Import M_Outcome M_Value M_Stat M_HashMap M_Registry S_StatMap S_Demo.
Import ListNotations.
Local Open Scope Z_scope.

Section Spec.
  Context {P : Prog} (N : StatNames P).
  (** [n] is the name of the stat [s]. *)
  Definition named (n : string) (s : inst P) : Prop := In (n, si_index s) (sn_values N (si_ty s)).
  (** Two values of [T] do not share a name. *)
  Definition names_distinct (T : sty P) : Prop :=
    forall n i j, In (n, i) (sn_values N T) -> In (n, j) (sn_values N T) -> i = j.
  (** No name of [T] is bound by [r] to anything but the value of [T] with that name. *)
  Definition no_clash (r : string -> option (inst P)) (T : sty P) : Prop :=
    forall n i s, In (n, i) (sn_values N T) -> r n = Some s -> s = Inst T i.
  Definition called (o : rop P) : sty P := match o with RRegister T | RReplace T => T end.
End Spec.

(** Names for the demo program: two values called alike, in [Alive] and in [Atk]. *)
Definition demoN : StatNames demo := @Build_StatNames demo
  (fun s : demo_s => match s with
     | Hp => [("Hp", 0); ("MaxHp", 1)]
     | Atk => [("Atk", 0); ("Hp", 1); ("Def", 2)]
     | Alive => [("Alive", 0); ("Alive", 1)]
     end)%string
  (fun (s : demo_s) i =>
     if (i =? 0) then Done (match s with Hp => "Hp" | Atk => "Atk" | Alive => "Alive" end)%string
     else if (i =? 1) then Done (match s with Hp => "MaxHp" | Atk => "Hp" | Alive => "Alive" end)%string
     else Panics PBadIndex).
Definition demo_get (m : registry demo) (n : string) : option (demo_s * Z) :=
  match reg_get m n with Some s => Some (si_ty s : demo_s, si_index s) | None => None end.
