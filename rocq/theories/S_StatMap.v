(** What a [StatMap] is meant to be: a finite map from (stat, qualifier) to value. *)
From Coq Require Import ZArith List Sorted.
From Verif Require Import M_Outcome M_Value M_Qualifier M_Stat M_StatMap.
Import ListNotations.

(** The laws Rust requires of [Ord]. *)
Record lawful_ord {A : Type} (cmp : A -> A -> comparison) : Prop := {
  lo_eq : forall a b, cmp a b = Eq <-> a = b;
  lo_anti : forall a b, cmp b a = CompOpp (cmp a b);
  lo_trans : forall a b c, cmp a b = Lt -> cmp b c = Lt -> cmp a c = Lt
}.

Definition distinct_vtables (P : Prog) : Prop := forall a b, vt_addr P a = vt_addr P b -> a = b.

Section Spec.
  Context {P : Prog} {Q : QFlag} {V : Type}.
  Notation stat := (inst P).
  Notation qual := (qualifier Q).

  (** The abstract map. *)
  Definition smap : Type := stat -> qual -> option V.
  Definition empty_map : smap := fun _ _ => None.

  (** The vector [m] stands for [sp]: the same bindings, each key at most once. *)
  Definition represents (m : statmap P Q V) (sp : smap) : Prop :=
    (forall s q v, sp s q = Some v <-> In (Entry s q v) m) /\
    NoDup (map (fun e => (e_stat e, e_qual e)) m).

  (** The invariant of the vector: strictly ascending keys. *)
  Definition wf (m : statmap P Q V) : Prop := StronglySorted (fun a b => entry_cmp a b = Lt) m.

  Definition binds (sp sp' : smap) (s : stat) (q : qual) (o : option V) : Prop :=
    sp' s q = o /\ forall s' q', (s', q') <> (s, q) -> sp' s' q' = sp s' q'.
  Definition unchanged (sp sp' : smap) : Prop := forall s q, sp' s q = sp s q.

  (** One operation on the abstract map and the value it hands out. *)
  Definition spec_step (sp : smap) (o : cop P Q V) (out : option V) (sp' : smap) : Prop :=
    match o with
    | CPut q s v => out = None /\ exists x, v = Done x /\ binds sp sp' s q (Some x)
    | CUpdate q s f =>
        out = None /\
        match sp s q with
        | None => unchanged sp sp'
        | Some v => exists v', f v = Done v' /\ binds sp sp' s q (Some v')
        end
    | CUpsert q s f d =>
        out = None /\ exists v', match sp s q with Some v => f v | None => d end = Done v' /\
        binds sp sp' s q (Some v')
    | CTake q s => out = sp s q /\ binds sp sp' s q None
    | CDrain s =>
        out = None /\ (forall q, sp' s q = None) /\ (forall s' q, s' <> s -> sp' s' q = sp s' q)
    | CUpdateSlice s f =>
        out = None /\
        (forall q, match sp s q with
                   | None => sp' s q = None
                   | Some v => exists v', f q v = Done v' /\ sp' s q = Some v'
                   end) /\
        (forall s' q, s' <> s -> sp' s' q = sp s' q)
    | CClear => out = None /\ forall s q, sp' s q = None
    | CExtend _ => False
    end.

  Inductive spec_run : smap -> list (cop P Q V) -> list (option V) -> smap -> Prop :=
  | spec_nil : forall sp sp', unchanged sp sp' -> spec_run sp [] [] sp'
  | spec_cons : forall sp o out sp1 l outs sp2,
      spec_step sp o out sp1 -> spec_run sp1 l outs sp2 -> spec_run sp (o :: l) (out :: outs) sp2.

  (** Everything but bulk extension. *)
  Definition single (o : cop P Q V) : Prop := match o with CExtend _ => False | _ => True end.

  (** The functions and values supplied by the caller do not panic. *)
  Definition total_op (o : cop P Q V) : Prop :=
    match o with
    | CPut _ _ v => exists x, v = Done x
    | CUpdate _ _ f => forall v, exists v', f v = Done v'
    | CUpsert _ _ f d => (forall v, exists v', f v = Done v') /\ exists x, d = Done x
    | CUpdateSlice _ f => forall q v, exists v', f q v = Done v'
    | CExtend l => exists x, l = Done x
    | _ => True
    end.
End Spec.
Arguments smap P Q V : clear implicits.

(** The same for the public methods: every stat [s] has its own value type. *)
Section TypedSpec.
  Context {P : Prog} {Q : QFlag}.
  Notation VS s := (VT P (vt_value P (si_ty s))).
  Definition tmap : Type := forall s : inst P, qualifier Q -> option (val (VS s)).
  Definition empty_tmap : tmap := fun _ _ => None.
  Definition tbinds (sp sp' : tmap) (s : inst P) (q : qualifier Q) (o : option (val (VS s))) : Prop :=
    sp' s q = o /\ forall s' q', (s', q') <> (s, q) -> sp' s' q' = sp s' q'.
  Definition or_default (s : inst P) (o : option (val (VS s))) : val (VS s) :=
    match o with Some v => v | None => sv_default (VS s) end.

  Definition tspec_step (sp : tmap) (o : mop P Q) (sp' : tmap) : Prop :=
    match o with
    | MInsert q s v => tbinds sp sp' s q (Some v)
    | MInsertBase q s b => tbinds sp sp' s q (Some (sv_from_base (VS s) b))
    | MGetMut q s f =>
        match sp s q with
        | None => forall s' q', sp' s' q' = sp s' q'
        | Some v => exists v', f v = Done v' /\ tbinds sp sp' s q (Some v')
        end
    | MRemove q s => tbinds sp sp' s q None
    | MModify q s op =>
        exists v', write_to op (or_default s (sp s q)) = Done v' /\ tbinds sp sp' s q (Some v')
    | MModifyWith q s f =>
        exists v', f (or_default s (sp s q)) = Done v' /\ tbinds sp sp' s q (Some v')
    | MRemoveAll s => (forall q, sp' s q = None) /\ (forall s' q, s' <> s -> sp' s' q = sp s' q)
    | MIterMut s f =>
        (forall q, match sp s q with
                   | None => sp' s q = None
                   | Some v => exists v', f q v = Done v' /\ sp' s q = Some v'
                   end) /\
        (forall s' q, s' <> s -> sp' s' q = sp s' q)
    | MClear => forall s q, sp' s q = None
    | MExtend U l =>
        (* for keys that are new and pairwise distinct *)
        (forall s q, si_ty s <> U -> sp' s q = sp s q) /\
        (forall i q, (forall v, ~ In (q, i, v) l) -> sp' (Inst U i) q = sp (Inst U i) q) /\
        (forall i q v, In (q, i, v) l -> sp' (Inst U i) q = Some v)
    end.
  Inductive tspec_run : tmap -> list (mop P Q) -> tmap -> Prop :=
  | tspec_nil : forall sp, tspec_run sp [] sp
  | tspec_cons : forall sp o sp1 l sp2,
      tspec_step sp o sp1 -> tspec_run sp1 l sp2 -> tspec_run sp (o :: l) sp2.

  Definition tsingle (o : mop P Q) : Prop := match o with MExtend _ _ => False | _ => True end.
  (** The keys of a bulk insertion are new and pairwise distinct. *)
  Definition fresh (sp : tmap) (U : sty P) (l : list (qualifier Q * Z * val (VT P (vt_value P U)))) : Prop :=
    NoDup (map fst l) /\ forall i q v, In (q, i, v) l -> sp (Inst U i) q = None.

  (** Every bulk insertion of the history [l], started on [sp], only adds new, distinct keys. *)
  Definition fresh_history (sp : tmap) (l : list (mop P Q)) : Prop :=
    forall l1 U k l2 sp1, l = l1 ++ MExtend U k :: l2 -> tspec_run sp l1 sp1 -> fresh sp1 U k.

  (** The value type fits a buffer and the caller's code returns. *)
  Definition fits (s : inst P) : Prop := validate_ty P (vt_value P (si_ty s)) = Done tt.
  Definition total_mop (o : mop P Q) : Prop :=
    match o with
    | MInsert _ s _ | MInsertBase _ s _ => fits s
    | MGetMut _ s f => forall v, exists v', f v = Done v'
    | MModify _ s op => fits s /\ forall v, exists v', write_to op v = Done v'
    | MModifyWith _ s f => fits s /\ forall v, exists v', f v = Done v'
    | MIterMut s f => forall q v, exists v', f q v = Done v'
    | MExtend U l => validate_ty P (vt_value P U) = Done tt
    | _ => True
    end.

  (** The entries of stat [s] selected by a query, in ascending qualifier order. *)
  Definition selection (sp : tmap) (s : inst P) (sel : qualifier Q -> bool) (l : list (qualifier Q * val (VS s))) : Prop :=
    StronglySorted (fun a b => qual_cmp (fst a) (fst b) = Lt) l /\
    forall q v, In (q, v) l <-> sp s q = Some v /\ sel q = true.
  Definition join_all (s : inst P) (v : val (VS s)) (l : list (qualifier Q * val (VS s))) : outcome (val (VS s)) :=
    ofold (fun a p => sv_join (VS s) a (snd p)) v l.

  (** Code supplied by the user of the library is itself free of undefined behaviour. *)
  Definition sound_op (o : mop P Q) : Prop :=
    match o with
    | MGetMut _ s f | MModifyWith _ s f => forall v, f v <> UB
    | MIterMut s f => forall q v, f q v <> UB
    | MModify _ s op => forall v, write_to op v <> UB
    | _ => True
    end.
  Definition sound_prog : Prop :=
    (forall t a b, sv_join (VT P t) a b <> UB) /\ (forall t a, sv_eval (VT P t) a <> UB).
End TypedSpec.
Arguments tmap P Q : clear implicits.
