(** What is expected of tables. *)
From Coq Require Import ZArith Arith List Bool.
From Verif Require Import M_Outcome M_Value M_Types M_Qualifier M_Search M_Stat M_StatMap M_AnyOrd M_VTable
  S_Search S_StatMap S_Demo S_AnyOrd.
Import ListNotations.

(** A type returns only tables that were made for it. *)
Definition own_tables (c : crate) : Prop := forall T t, gives c T t -> fst t = T.
(** No type but [T] itself is a subtype of [T]. *)
Definition rigid (T : rty) : Prop := forall U, sub U T = true -> U = T.
(** Tables lie apart; tables that lie together (merged by the compiler) are for the same value type. *)
Definition apart (c : crate) : Prop := forall t u, cr_addr c t = cr_addr c u -> t = u.
Definition same_values (c : crate) : Prop :=
  forall t u, cr_addr c t = cr_addr c u -> cr_value c (fst t) = cr_value c (fst u).

Section Spec.
  Context {c : crate} {Q : QFlag}.
  (** The call got its table from [vtable()]. *)
  Definition comes (s : vstat) : Prop := gives c (vs_impl s) (vs_table s).
  Definition vop_comes (x : vop c Q) : Prop :=
    match x with
    | VInsert _ s _ | VInsertBase _ s _ | VGetMut _ s _ | VRemove _ s | VModify _ s _ | VModifyWith _ s _
    | VRemoveAll s | VIterMut s _ => comes s
    | VClear => True
    | VExtend T l => Forall (fun y => gives c T (fst (snd (fst y)))) l
    end.
  (** User code passed to the call is defined. *)
  Definition vop_sound (x : vop c Q) : Prop :=
    match x with
    | VGetMut _ s f | VModifyWith _ s f => forall v, f v <> UB
    | VIterMut s f => forall q v, f q v <> UB
    | VModify _ s op => forall v, write_to op v <> UB
    | _ => True
    end.
  Definition vcall_ok (k : flag_order Q * vop c Q) : Prop := vop_comes (snd k) /\ vop_sound (snd k).
End Spec.

(** A call in the program of tables as a call of the type the table was made for. *)
Definition raise_inst {c} (s : inst (prog_of c)) : vstat := VStat (fst (si_ty s)) (si_ty s) (si_index s).
Definition raise {c Q} (o : mop (prog_of c) Q) : vop c Q :=
  match o with
  | MInsert q s v => VInsert q (raise_inst s) v
  | MInsertBase q s b => VInsertBase q (raise_inst s) b
  | MGetMut q s f => VGetMut q (raise_inst s) f
  | MRemove q s => VRemove q (raise_inst s)
  | MModify q s op => VModify q (raise_inst s) op
  | MModifyWith q s f => VModifyWith q (raise_inst s) f
  | MRemoveAll s => VRemoveAll (raise_inst s)
  | MIterMut s f => VIterMut (raise_inst s) f
  | MClear => VClear
  | MExtend U l => VExtend (fst U) (map (fun y => (fst (fst y), (U, snd (fst y)), snd y)) l)
  end.

(** Crates for the examples. Addresses: every table lies somewhere else. *)
Fixpoint unary (n : nat) (p : positive) : positive := match n with O => xI p | S n => xO (unary n p) end.
Fixpoint encode (t : rty) (p : positive) : positive :=
  match t with
  | Named n => xO (xO (unary n p))
  | FnRef ForAny => xO (xI (xO p))
  | FnRef Static => xO (xI (xI p))
  | Wrap t => xI (encode t p)
  end.
Definition far (t : table) : Z := Zpos (encode (fst t) (unary (snd t) xH)).
Definition shop (value : rty -> demo_v) (body : rty -> nat -> vexpr) (addr : table -> Z) : crate := {|
  cr_vty := demo_v; cr_vty_dec := vty_dec demo; cr_VT := VT demo; cr_size := v_size demo; cr_align := v_align demo;
  cr_value := value; cr_body := body; cr_addr := addr |}.
(** [W<for<'a> fn(&'a u8)>] and [W<fn(&'static u8)>]. *)
Definition wide : rty := Wrap (FnRef ForAny).
Definition narrow : rty := Wrap (FnRef Static).
(** [narrow] has booleans, everything else numbers; [narrow::vtable()] returns [wide::vtable()]. *)
Definition smuggler : crate := shop
  (fun T => if rty_dec T narrow then VBool else VNum)
  (fun T _ => if rty_dec T narrow then Asks wide else Table (T, 0)) far.
(** Every second call returns another table. *)
Definition fickle : crate := shop (fun T => VNum) (fun T n => Table (T, if Nat.even n then 0 else 1)) far.
(** The tables of types [Named 0] and [Named 1] were merged; wrapped types have booleans. *)
Definition merged : crate := shop (fun T => match T with Wrap _ => VBool | _ => VNum end) (fun T _ => Table (T, 0))
  (fun t => far (if rty_dec (fst t) (Named 1) then Named 0 else fst t, snd t)).

Definition smug_put (x : Z) : flag_order intQ * vop smuggler intQ := (steady, @VInsert smuggler intQ none (VStat wide (wide, 0) 0) (num x)).
Definition smug_get (m : map_t (prog_of smuggler) intQ) : outcome (option bool) := @v_get smuggler intQ any_new steady m none (VStat narrow (wide, 0) 0).
Definition smug_query (m : map_t (prog_of smuggler) intQ) : outcome bool := @v_query smuggler intQ any_new m (@Aggregate intQ 0%Z) (VStat narrow (wide, 0) 0).
Definition fickle_put (k : nat) (x : Z) : flag_order intQ * vop fickle intQ := (steady, @VInsert fickle intQ none (VStat (Named 0) (Named 0, k) 0) (num x)).
Definition fickle_get (m : map_t (prog_of fickle) intQ) (k : nat) : outcome (option (quad Z Z)) :=
  @v_get fickle intQ any_new steady m none (VStat (Named 0) (Named 0, k) 0).
Definition fickle_query (m : map_t (prog_of fickle) intQ) (k : nat) : outcome (quad Z Z) :=
  @v_query fickle intQ any_new m (@Aggregate intQ 0%Z) (VStat (Named 0) (Named 0, k) 0).
Definition merged_put (a : nat) (x : Z) : flag_order intQ * vop merged intQ := (steady, @VInsert merged intQ none (VStat (Named a) (Named a, 0) 0) (num x)).
Definition merged_flag (b : bool) : flag_order intQ * vop merged intQ := (steady, @VInsert merged intQ none (VStat (Wrap (Named 2)) (Wrap (Named 2), 0) 0) b).
Definition merged_get (m : map_t (prog_of merged) intQ) (a : nat) : outcome (option (quad Z Z)) :=
  @v_get merged intQ any_new steady m none (VStat (Named a) (Named a, 0) 0).
Definition merged_query (m : map_t (prog_of merged) intQ) (a : nat) : outcome (quad Z Z) :=
  @v_query merged intQ any_new m (@Aggregate intQ 0%Z) (VStat (Named a) (Named a, 0) 0).
Definition v_or {c Q} (o : outcome (map_t (prog_of c) Q)) : map_t (prog_of c) Q := match o with Done m => m | _ => [] end.
(** A pair made for [Named a] and given to [Named b], and to [Wrap (Named 2)]. *)
Definition merged_return (a b : nat) (x : Z) : outcome (option (quad Z Z)) :=
  let! p := @v_new merged (VStat (Named a) (Named a, 0) 0) (num x) in @v_into merged p (VStat (Named b) (Named b, 0) 0).
Definition merged_wrapped (a : nat) (x : Z) : outcome (option bool) :=
  let! p := @v_new merged (VStat (Named a) (Named a, 0) 0) (num x) in @v_into merged p (VStat (Wrap (Named 2)) (Wrap (Named 2), 0) 0).
