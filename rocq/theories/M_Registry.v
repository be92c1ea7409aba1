(** Names of stats and the registry used by deserialization (src/plugin.rs, src/stat.rs). *)
From Coq Require Import ZArith List Bool String.
From Verif Require Import M_Outcome M_Value M_Stat M_HashMap.
Import ListNotations.
Local Open Scope Z_scope.

(** What the registry and the serializers use of a [Stat] implementor [T]: for each value of
    [T::values()] its name and index, in order (src/stat.rs:167-206), and the name function of
    its vtable, [|id| T::index_to_name(id)] (src/stat.rs:40, 71, 210-212), which may panic. *)
Record StatNames (P : Prog) : Type := {
  sn_values : sty P -> list (string * Z);
  sn_name : sty P -> Z -> outcome string
}.
Arguments sn_values {P}.
Arguments sn_name {P}.

Section Registry.
  Context {P : Prog} (N : StatNames P).

  (** [StatDeserializers] (src/plugin.rs:239-242). *)
  Definition registry : Type := hmap string (inst P).
  (** [get] (277-279) *)
  Definition reg_get (m : registry) (n : string) : option (inst P) := hget String.eqb m n.

  (** The closure of [register] (259-265) on one value, and the loop over all of them. A panic
      stops the loop; the names inserted before stay. The result is the registry afterwards
      together with the way the call ended. *)
  Definition reg_one (m : registry) (n : string) (s : inst P) : registry * outcome unit :=
    match hget String.eqb m n with
    | Some prev => (m, if inst_eqb prev s then Done tt else Panics PDuplicate)
    | None => (fst (hput String.eqb m n s), Done tt)
    end.
  Fixpoint reg_each (T : sty P) (m : registry) (l : list (string * Z)) : registry * outcome unit :=
    match l with
    | [] => (m, Done tt)
    | (n, i) :: l' =>
        match reg_one m n (Inst T i) with
        | (m', Done _) => reg_each T m' l'
        | r => r
        end
    end.
  (** [register] (258-266) *)
  Definition register (m : registry) (T : sty P) : registry * outcome unit := reg_each T m (sn_values N T).
  (** [register_replace] (271-275) *)
  Definition register_replace (m : registry) (T : sty P) : registry :=
    fold_left (fun m p => fst (hput String.eqb m (fst p) (Inst T (snd p)))) (sn_values N T) m.

  (** Histories of calls, panicking calls included (the caller may catch the panic). *)
  Inductive rop : Type := RRegister (T : sty P) | RReplace (T : sty P).
  Definition rop_run (m : registry) (o : rop) : registry :=
    match o with RRegister T => fst (register m T) | RReplace T => register_replace m T end.
  Definition rops_run (l : list rop) : registry := fold_left rop_run l [].
End Registry.
Arguments registry : clear implicits.
Arguments rop : clear implicits.
Arguments RRegister {P}.
Arguments RReplace {P}.
