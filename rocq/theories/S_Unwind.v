(** What a caught panic may change in a map, and the demonstration data of P_Unwind.v. *)
From Coq Require Import ZArith Arith List Bool.
From Verif Require Import M_Outcome M_Ints M_Value M_Types M_Qualifier M_Search M_Stat M_StatMap M_Unwind S_StatMap S_Demo.
Import ListNotations.
Local Open Scope Z_scope.

Section Spec.
  Context {P : Prog} {Q : QFlag}.
  (** The keys whose value a method hands out for writing. *)
  Definition hands_out (o : mop P Q) (s : inst P) (q : qualifier Q) : Prop :=
    match o with
    | MGetMut q' s' _ | MModify q' s' _ | MModifyWith q' s' _ => s = s' /\ q = q'
    | MIterMut s' _ => s = s'
    | _ => False
    end.
  (** Same keys in the same order; only values handed out for writing differ. *)
  Definition kept_but (w : inst P -> qualifier Q -> Prop) (m m' : map_t P Q) : Prop :=
    Forall2 (fun e e' => e_stat e' = e_stat e /\ e_qual e' = e_qual e /\
                         (~ w (e_stat e) (e_qual e) -> e_val e' = e_val e)) m m'.
  (** User code has no undefined behaviour, and no user iterator panics inside [extend]. *)
  Definition sound_uop (u : uop P Q) : Prop :=
    match u with UCall o _ => sound_op o | UDropPanics _ => True | UExtendPanics _ _ => False end.
  (** The one key whose value a method hands out for writing. *)
  Definition slot_of (o : mop P Q) (s : inst P) (q : qualifier Q) : Prop :=
    match o with
    | MGetMut q' s' _ | MModify q' s' _ | MModifyWith q' s' _ => s' = s /\ q' = q
    | _ => False
    end.
  Definition holds (m : map_t P Q) (s : inst P) (q : qualifier Q) (v : val (VT P (vt_value P (si_ty s)))) : Prop :=
    In (Entry s q (Buf (vt_value P (si_ty s)) v)) m.
  (** A loop [f] over the items of [s] in [m] that panicked with [p]: the items [b] before were
      updated, the item at hand holds what was left there, everything else is as it was. *)
  Definition loop_left (s : inst P) f (r : residue P) (p : panic) (m m' : map_t P Q) : Prop :=
    exists a b q v b' c,
    m = a ++ b ++ Entry s q (Buf (vt_value P (si_ty s)) v) :: c /\ Forall (fun x => e_stat x <> s) a /\
    f q v = Panics p /\
    Forall2 (fun x x' => exists q1 w w', x = Entry s q1 (Buf (vt_value P (si_ty s)) w) /\ f q1 w = Done w' /\
                           x' = Entry s q1 (Buf (vt_value P (si_ty s)) w')) b b' /\
    m' = a ++ b' ++ Entry s q (Buf (vt_value P (si_ty s)) (r s)) :: c.
End Spec.

(** Demonstration: code that panics after leaving 77 (or [true]) in the slot it was given. *)
Definition left77 : residue demo := fun s =>
  match si_ty s as u return val (VT demo (vt_value demo u)) with Alive => true | _ => num 77 end.
Definition uplain (o : dop) : uop demo intQ := UCall o left77.
(** [modify(q, hp, Add(x))]: overflow panics. *)
Definition uadd (q : qualifier intQ) (x : Z) : uop demo intQ := UCall (add_num q x) left77.
(** A loop over [iter_mut] that adds [x] to every item and panics at the item [ice]. *)
Definition ueach (x : Z) : uop demo intQ :=
  UCall (@MIterMut demo intQ hp (fun q v => if all_of q =? 2 then Panics PUser else sv_add (VT demo VNum) v x)) left77.
Definition uextend_atk (l : list (qualifier intQ * Z * quad Z Z)) : uop demo intQ := @UExtendPanics demo intQ Atk l.
Definition udemo (l : list (uop demo intQ)) : map_t demo intQ :=
  match u_run bs_new [] l with Done m => m | _ => [] end.
Definition is_ub {A} (o : outcome A) : bool := match o with UB => true | _ => false end.
Definition is_done {A} (o : outcome A) : bool := match o with Done _ => true | _ => false end.
Definition query_atk_ub (m : map_t demo intQ) : bool := is_ub (m_query bs_new m (@Aggregate intQ 0) atk).
