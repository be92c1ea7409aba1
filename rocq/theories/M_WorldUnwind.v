(** What a call on a world (src/plugin.rs:47-118) leaves behind when it panics and the panic is
    caught. In M_World.v such a call ends the history. *)
From Coq Require Import ZArith List Bool String.
From Verif Require Import M_Outcome M_Value M_Qualifier M_Search M_Stat M_StatMap M_Unwind M_HashMap M_Pair M_Defaults M_Registry M_Querier M_World.
Import ListNotations.

Section WorldUnwind.
  Context {P : Prog} {Q : QFlag} (N : StatNames P).
  Variables o_size o_align : vty P -> Z.
  Notation tyof s := (vt_value P (si_ty s)).

  (** [insert] (148-150): [Buffer::from] runs before the table is touched. [patch] (153-165): the
      operation works on the stored value itself, which then holds what it left there; without
      an entry the operation works on a temporary. *)
  Definition d_unwound (d : defaults P) (c : dcall P) (u : residue P) : defaults P :=
    match c with
    | DInsert _ _ => d
    | DPatch s op =>
        match hget inst_eqb d s with
        | Some b => match d_cast (tyof s) b with Done _ => hset inst_eqb d s (DVal (Buf (tyof s) (u s))) | _ => d end
        | None => d
        end
    end.

  (** [get_resource_or_insert_with] has returned in every case, so the resource exists.
      [register] (258-266) keeps the names it came to. A query keeps what it put into the cache;
      the lock is only held around single operations on it (src/cache.rs:56-90), none of which
      panics here (see M_Poison.v for clones and drops that do). [resource_mut] (72-74) panics
      before anything happens. *)
  Definition w_unwound (r : resources P Q) (o : wop P Q) (u : residue P) : resources P Q :=
    match o with
    | WRegister T => set_names r (fst (register N (or_insert (r_names r)) T))
    | WDefault s v => set_defaults r (d_unwound (or_insert (r_defaults r)) (DInsert s v) u)
    | WMin s x => set_defaults r (d_unwound (or_insert (r_defaults r)) (register_min s x) u)
    | WMax s x => set_defaults r (d_unwound (or_insert (r_defaults r)) (register_max s x) u)
    | WQuery sc n p => match r_cache r with Some _ => set_cache r (Some (snd (w_query r sc n p))) | None => r end
    | WRelation _ | WClear | WCache | WQueryClear | WSeed _ _ _ => r
    end.

  (** One call whose panic, if there is one, is caught. *)
  Definition c_step (r : resources P Q) (c : wop P Q * residue P) : outcome (resources P Q) :=
    match w_step N o_size o_align r (fst c) with
    | Done r' => Done r'
    | Panics _ => Done (w_unwound r (fst c) (snd c))
    | UB => UB
    | NoFuel => NoFuel
    end.
  Fixpoint c_run (r : resources P Q) (l : list (wop P Q * residue P)) : outcome (resources P Q) :=
    match l with [] => Done r | c :: l' => let! r' := c_step r c in c_run r' l' end.
End WorldUnwind.
