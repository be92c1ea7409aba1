(** What is left in a [StatMap] (src/stat_map.rs) when a call panics and the panic is caught:
    every method runs on [&mut self], so the caller keeps the map. A panicking call does not
    return, hence the model of M_StatMap.v says nothing about it; here the point of the panic in
    each method is followed. *)
From Coq Require Import ZArith Arith List Bool.
From Verif Require Import M_Outcome M_Value M_Qualifier M_Search M_Stat M_StatMap.
Import ListNotations.

Section Unwind.
  Variable P : Prog.
  Variable Q : QFlag.
  Variable bs : list comparison -> bsres.
  Notation tyof s := (vt_value P (si_ty s)).
  Notation VS s := (VT P (tyof s)).

  (** User code that was given [&mut S::Value] may have written anything of that type there
      before it panicked: any value per stat. *)
  Definition residue : Type := forall s : inst P, val (VS s).

  (** The slot found by [get_mut], [modify], [modify_with] (220-223, 299-304, 325-330) when the
      code run on it panics; a panic before the reference is handed out changes nothing, nor does
      one on the way to inserting a new value (305-312, 331-340). *)
  Definition slot_unwound (m : map_t P Q) (q : qualifier Q) (s : inst P) (r : residue) : map_t P Q :=
    match search bs m q s with
    | inl i =>
        match nth_error m i with
        | Some e =>
            match buf_ref P (tyof s) (e_val e) with
            | Done _ => firstn i m ++ Entry (e_stat e) (e_qual e) (Buf (tyof s) (r s)) :: skipn (S i) m
            | _ => m
            end
        | None => m
        end
    | inr _ => m
    end.

  (** A loop over [iter_mut] (271-279) whose body panics: the items before are updated, the item
      at hand holds what the body left there, the items after are untouched. *)
  Fixpoint each_unwound (s : inst P) (f : qualifier Q -> val (VS s) -> outcome (val (VS s))) (r : residue)
      (m : map_t P Q) : map_t P Q :=
    match m with
    | [] => []
    | e :: m' =>
        match buf_ref P (tyof s) (e_val e) with
        | Done v =>
            match f (e_qual e) v with
            | Done v' => Entry (e_stat e) (e_qual e) (Buf (tyof s) v') :: each_unwound s f r m'
            | _ => Entry (e_stat e) (e_qual e) (Buf (tyof s) (r s)) :: m'
            end
        | _ => m
        end
    end.

  (** [insert], [insert_base]: [Buffer::from] validates before the map is touched (168-169,
      190-191). [remove]: no user code runs. [remove_all], [clear]: see [UDropPanics]. [extend]:
      [Buffer::from] fails for a type, hence on the first item, before anything is pushed. *)
  Definition unwound (m : map_t P Q) (o : mop P Q) (r : residue) : map_t P Q :=
    match o with
    | MGetMut q s _ | MModify q s _ | MModifyWith q s _ => slot_unwound m q s r
    | MIterMut s f =>
        match cut bs m s with
        | Done c => fst (fst c) ++ each_unwound s f r (snd (fst c)) ++ snd c
        | _ => m
        end
    | MInsert _ _ _ | MInsertBase _ _ _ | MRemove _ _ | MRemoveAll _ | MClear | MExtend _ _ => m
    end.

  (** One call whose panic, if there is one, is caught.
      - [UCall]: a method; if it panics the map is what [unwound] says.
      - [UDropPanics]: [clear] ([None]) or [remove_all] ([Some s]) with a stored value whose own
        [Drop] panics. [Vec::clear] sets the length to 0 before dropping, and [Drain] closes the
        gap on unwinding (std), so the entries are gone either way; that the remaining values
        of the range are still dropped is std's doing and not modelled.
      - [UExtendPanics]: [extend] of a user iterator that yields [l] and then panics. [Vec::extend]
        has pushed the items (121-130) and the sort (131) is never reached. *)
  Inductive uop : Type :=
  | UCall (o : mop P Q) (r : residue)
  | UDropPanics (s : option (inst P))
  | UExtendPanics (U : sty P) (l : list (qualifier Q * Z * val (VT P (vt_value P U)))).

  Definition u_step (m : map_t P Q) (u : uop) : outcome (map_t P Q) :=
    match u with
    | UCall o r =>
        match mop_run bs m o with
        | Done x => Done (x_map x)
        | Panics _ => Done (unwound m o r)
        | UB => UB
        | NoFuel => NoFuel
        end
    | UDropPanics None => let! _ := drop_all m in Done []
    | UDropPanics (Some s) => let! c := cut bs m s in let! _ := drop_all (snd (fst c)) in Done (fst (fst c) ++ snd c)
    | UExtendPanics U l =>
        match build U l with
        | Done e => Done (m ++ e)
        | Panics _ => Done m
        | UB => UB
        | NoFuel => NoFuel
        end
    end.
  Fixpoint u_run (m : map_t P Q) (l : list uop) : outcome (map_t P Q) :=
    match l with
    | [] => Done m
    | u :: l' => let! m' := u_step m u in u_run m' l'
    end.
End Unwind.
Arguments slot_unwound {P Q}.
Arguments each_unwound {P Q}.
Arguments unwound {P Q}.
Arguments UCall {P Q}.
Arguments UDropPanics {P Q}.
Arguments UExtendPanics {P Q}.
Arguments u_step {P Q}.
Arguments u_run {P Q}.
