(** What remains true of the cache when the flags' [Eq] and [Hash] are arbitrary, and
    demonstration data. *)
From Coq Require Import ZArith List Bool.
From Verif Require Import M_Outcome M_Value M_Types M_Qualifier M_Stat M_HashMap M_Pair M_Defaults M_Querier M_Poison M_AnyEq
  S_Querier S_Demo S_DemoQuery.
Import ListNotations.
Local Open Scope Z_scope.

Section S.
  Context {P : Prog} {Q : QFlag}.
  (** What a thread is about to store, and for which entity and stat. *)
  Definition storing {A} (m : act P Q A) : list (entity * inst P * buffer P) :=
    match m with APut (e, _, s) b _ => [(e, s, b)] | _ => [] end.
  (** Threads in any interleaving, with everything they tried to store so far. *)
  Inductive any_hist (cp dp : buffer P -> bool) {A} : list (act P Q A) * pcache P Q -> list (entity * inst P * buffer P) -> list (act P Q A) * pcache P Q -> Prop :=
  | hist_refl : forall s, any_hist cp dp s [] s
  | hist_one : forall w l1 m l2 st m' st' lg l s,
      whim_step cp dp w m st = Some (m', st', lg) -> any_hist cp dp (l1 ++ m' :: l2, st') l s ->
      any_hist cp dp (l1 ++ m :: l2, st) (storing m ++ l) s.

  (** Flags that behave: clones are equal, [==] is the relation [q_eqb], nothing panics, and
      the slots compared include every slot whose key is equal. *)
  Record well_behaved (c : cache P Q) (k : key P Q) (w : whim Q) : Prop := {
    wb_clone : forall x, w_clone w x = Some x;
    wb_eq : forall i a b, w_eq w i a b = Some (q_eqb Q a b);
    wb_rehash : w_rehash w = None;
    wb_drop : w_drop w = false;
    wb_slots : exists l, w_slots w = Some l /\ forall n b, nth_error c n = Some (k, b) -> In n l
  }.
  Definition act_key {A} (m : act P Q A) : option (key P Q) :=
    match m with AGet k _ | APut k _ _ => Some k | _ => None end.
  Definition behaves {A} (m : act P Q A) (c : cache P Q) (w : whim Q) : Prop :=
    w_drop w = false /\ match act_key m with Some k => well_behaved c k w | None => True end.

  (** A query by somebody: through which querier, how deep at most, and what. *)
  Definition asker (A : Type) : Type := joined P Q * nat * prog P Q A.
  Definition asking {A} (t : asker A) : act P Q A := client (fst (fst t)) (snd (fst t)) (snd t).
  (** Queriers and programs made of sound code that keeps pairs typed. *)
  Definition asks_soundly {A} (t : asker A) : Prop :=
    let j := fst (fst t) in
    stats_kept j /\ relations_kept j /\ defaults_typed (j_world j) /\ code_sound j /\ stops (fun o => o <> UB) (snd t).

  (** One thread alone, a whim for each operation; [None] if there are too few. *)
  Fixpoint any_go (cp dp : buffer P -> bool) {A} (ws : list (whim Q)) (m : act P Q A) (st : pcache P Q) : option (outcome A * pcache P Q) :=
    match m with
    | ARet a => Some (Done a, st)
    | AFail o => Some (abort o, st)
    | _ =>
        match ws with
        | [] => None
        | w :: ws' => match whim_step cp dp w m st with Some (m', st', _) => any_go cp dp ws' m' st' | None => None end
        end
    end.
End S.

(** Flags for which everything is equal and every hash the same; ones for which nothing is
    equal; and ones that panic when compared, hashed, or made room for. *)
Definition all_slots : option (list nat) := Some (seq 0 100).
Definition all_equal : whim intQ := @Whim intQ (fun x => Some x) all_slots None (fun _ _ _ => Some true) false.
Definition none_equal : whim intQ := @Whim intQ (fun x => Some x) all_slots None (fun _ _ _ => Some false) false.
Definition fair : whim intQ := @Whim intQ (fun x => Some x) all_slots None (fun _ a b => Some (a =? b)) false.
Definition eq_panics : whim intQ := @Whim intQ (fun x => Some x) all_slots None (fun _ _ _ => None) false.
Definition rehash_panics : whim intQ := @Whim intQ (fun x => Some x) all_slots (Some [1%nat]) (fun _ a b => Some (a =? b)) false.

(** Asking for hp of entities one after the other with given whims, catching panics: the base values, whether the lock is
    poisoned, the entries. *)
Fixpoint see_any (j : joined demo intQ) (st : pcache demo intQ) (l : list (entity * qquery intQ * list (whim intQ))) : list (option (outcome Z)) * bool * nat :=
  match l with
  | [] => ([], pc_poisoned st, List.length (pc_map st))
  | (e, x, ws) :: l' =>
      match any_go (fun _ => false) (fun _ => false) ws (client j 3 (ask_hp e x)) st with
      | None => ([None], pc_poisoned st, List.length (pc_map st))
      | Some (o, st') => let t := see_any j st' l' in (Some o :: fst (fst t), snd (fst t), snd t)
      end
  end.
