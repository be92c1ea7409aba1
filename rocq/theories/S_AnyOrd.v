(** What std promises of searching and sorting under an order that keeps no law, and the demo data. *)
From Coq Require Import ZArith List Bool Sorted Permutation Relations.
From Verif Require Import M_Outcome M_Value M_Types M_Qualifier M_Search M_Stat M_StatMap M_AnyOrd S_Search S_StatMap S_Demo.
Import ListNotations.

(** A search looks at the elements of the slice only and panics only if the closure does.
    Whatever the answers: an index found was answered [Equal]; a gap returned has at its left end
    or beyond an element answered not to be [Greater], and at its right end or before one answered
    not to be [Less]. With a closure that always answers the same this is the documented contract. *)
Record search_contract (sr : searcher) : Prop := {
  sc_pure : bs_contract (pure_search sr);
  sc_elements : forall f g len, (forall n i, i < len -> f n i = g n i) -> sr f len = sr g len;
  sc_returns : forall f len, (forall n i, i < len -> f n i <> None) -> sr f len <> None;
  sc_found : forall f len i, sr f len = Some (inl i) -> i < len /\ exists n, f n i = Some Eq;
  sc_gap : forall f len i, sr f len = Some (inr i) -> i <= len /\
    (0 < i -> exists j n, i <= S j /\ j < len /\ (f n j = Some Lt \/ f n j = Some Eq)) /\
    (i < len -> exists j n, j <= i /\ (f n j = Some Gt \/ f n j = Some Eq))
}.

(** Some answer said that [a] need not come after [b]. *)
Definition said {A : Type} (c : asked A A) (a b : A) : Prop :=
  (exists n, c n a b = Some Lt \/ c n a b = Some Eq) \/ (exists n, c n b a = Some Gt \/ c n b a = Some Eq).

(** Sorting keeps the elements; when it returns, every two neighbours are in an order that follows
    from the answers. After a panic the order is unspecified (std). *)
Record sort_contract (srt : sorter) : Prop := {
  so_perm : forall A (c : asked A A) l, Permutation l (fst (srt A c l));
  so_order : forall A (c : asked A A) l, snd (srt A c l) = true -> Sorted (clos_refl_trans A (said c)) (fst (srt A c l))
}.

Section Spec.
  Context {P : Prog} {Q : QFlag}.
  Definition is_extend (o : mop P Q) : Prop := match o with MExtend _ _ => True | _ => False end.
  (** User code is sound, and no panic out of a sort is caught. *)
  Definition any_sound (k : acall P Q) : Prop :=
    sound_op (a_op k) /\ (is_extend (a_op k) -> a_catch k = false).
  (** The entries [l] of stat [s]: all those of the vector, each once, in order. *)
  Definition entries_of (m : map_t P Q) (s : inst P) (l : list (qualifier Q * val (VT P (vt_value P (si_ty s))))) : Prop :=
    map (fun p => Entry s (fst p) (Buf (vt_value P (si_ty s)) (snd p))) l =
    filter (fun e => inst_eqb (e_stat e) s) m.
  (** The order answers by its implementation, always. *)
  Definition steady : flag_order Q := fun _ a b => Some (qual_cmp a b).
End Spec.

(** ** Demo: an order that says [Less] to everything, one that alternates, one that panics. *)
Local Open Scope Z_scope.
Definition always (r : comparison) : flag_order intQ := fun _ _ _ => Some r.
Definition moody : flag_order intQ := fun n _ _ => Some (match n with O => Lt | 1%nat => Gt | _ => Eq end).
Definition booms : flag_order intQ := fun _ _ _ => None.
Definition ac (c : flag_order intQ) (o : dop) : acall demo intQ := ACall o c true.
Definition au (c : flag_order intQ) (o : dop) : acall demo intQ := ACall o c false.
Definition extend_atk (l : list (qualifier intQ * Z * quad Z Z)) : dop := @MExtend demo intQ Atk l.
Definition ademo (l : list (acall demo intQ)) : map_t demo intQ :=
  match any_run any_new insertion [] l with Done m => m | _ => [] end.
Definition aruns (l : list (acall demo intQ)) : bool :=
  match any_run any_new insertion [] l with Done _ => true | _ => false end.
Definition aget_hp (c : flag_order intQ) (m : map_t demo intQ) (q : qualifier intQ) : outcome (option (quad Z Z)) :=
  any_get any_new c m q hp.
