(** What saving and loading is meant to preserve. *)
From Coq Require Import String ZArith List Bool Sorted.
From Verif Require Import M_Outcome M_Ints M_Value M_Types M_Qualifier M_Search M_Stat M_StatMap M_HashMap M_Registry M_Serde
  S_StatMap S_Demo.
Import ListNotations.
Local Open Scope Z_scope.

Section Spec.
  Context {P : Prog} {Q : QFlag} (N : StatNames P) (C : Codec P Q).

  (** The value in [b] is of the type of [s], fits a buffer, and its impls round trip. *)
  Definition value_back (s : inst P) (b : buffer P) : Prop :=
    c_serial C (si_ty s) = true /\ fits s /\
    exists v d, b = Buf (vt_value P (si_ty s)) v /\ c_vser C _ v = ok d /\ c_vde C (vt_value P (si_ty s)) d = ok v.
  Definition flag_back (x : qcar Q) : Prop := exists d, c_qser C x = ok d /\ c_qde C d = ok x.
  (** The name written for [s] leads back to [s]. *)
  Definition name_back (r : registry P) (s : inst P) : Prop :=
    exists n, sn_name N (si_ty s) (si_index s) = Done n /\ reg_get r n = Some s.
  Definition storable (e : entry P Q (buffer P)) : Prop :=
    value_back (e_stat e) (e_val e) /\ flag_back (any_of (e_qual e)) /\ flag_back (all_of (e_qual e)).

  (** A whole document is a struct with the field [inner], in one of its two spellings. *)
  Definition is_inner (d : doc) (v : doc) : Prop :=
    (exists l1 l2, d = DMap (l1 ++ ("inner"%string, v) :: l2) /\
       (forall x, ~ In ("inner"%string, x) l1) /\ (forall x, ~ In ("inner"%string, x) l2)) \/
    (exists l, d = DSeq (v :: l) /\ (c_strict C = true -> l = [])).
  (** What a document of a qualifier has to be to stand for [q]: the two sets in order, or each
      under its name once, other names ignored. *)
  Definition under (n : string) (l : list (string * doc)) : list doc := map snd (filter (fun p => String.eqb (fst p) n) l).
  Definition qual_doc (d : doc) (q : qualifier Q) : Prop :=
    exists d1 d2, c_qde C d1 = ok (any_of q) /\ c_qde C d2 = ok (all_of q) /\
    ((exists l, d = DMap l /\ under "any_of" l = [d1] /\ under "all_of" l = [d2]) \/
     (exists l, d = DSeq (d1 :: d2 :: l) /\ (c_strict C = true -> l = []))).
  (** What a document of one entry has to be to stand for [e]. *)
  Definition entry_doc (w : dworld P) (d : doc) (e : entry P Q (buffer P)) : Prop :=
    exists dq n dv rest r v,
      d = DSeq (dq :: DStr n :: dv :: rest) /\ (c_strict C = true -> rest = []) /\
      qual_doc dq (e_qual e) /\
      w = WReg r /\ reg_get r n = Some (e_stat e) /\
      c_serial C (si_ty (e_stat e)) = true /\ fits (e_stat e) /\
      c_vde C (vt_value P (si_ty (e_stat e))) dv = ok v /\
      e_val e = Buf (vt_value P (si_ty (e_stat e))) v.
End Spec.

(** Moving the statics keeps the order of the types of the stats in [m]. *)
Definition same_order {P : Prog} {Q : QFlag} (a : sty P -> Z) (m : map_t P Q) : Prop :=
  forall e1 e2, In e1 m -> In e2 m ->
  (a (si_ty (e_stat e1)) ?= a (si_ty (e_stat e2))) = (vt_addr P (si_ty (e_stat e1)) ?= vt_addr P (si_ty (e_stat e2))).
Definition one_type {P : Prog} {Q : QFlag} (m : map_t P Q) : Prop :=
  forall e1 e2, In e1 m -> In e2 m -> si_ty (e_stat e1) = si_ty (e_stat e2).
Definition injective {A} (a : A -> Z) : Prop := forall x y, a x = a y -> x = y.

(** Every observer of [m'] in the new process answers as the same observer of [m] in the old. *)
Definition answers_same {P : Prog} {Q : QFlag} (bs bs' : list comparison -> bsres) (a : sty P -> Z)
    (m : map_t P Q) (m' : map_t (readdress P a) Q) : Prop :=
  (forall q s, m_get bs' m' q (re_inst P a s) = m_get bs m q s) /\
  (forall q s, m_get_evaled bs' m' q (re_inst P a s) = m_get_evaled bs m q s) /\
  (forall s, m_iter bs' m' (re_inst P a s) = m_iter bs m s) /\
  (forall x s, m_query bs' m' x (re_inst P a s) = m_query bs m x s) /\
  (forall x s, m_eval bs' m' x (re_inst P a s) = m_eval bs m x s) /\
  m_len m' = m_len m.

(** Names and impls for the demo program: numbers as sequences, flags as integers. *)
Definition saveN : StatNames demo := @Build_StatNames demo
  (fun s : demo_s => match s with Hp => [("Hp", 0); ("MaxHp", 1)] | Atk => [("Atk", 0)] | Alive => [("Alive", 0)] end)%string
  (fun (s : demo_s) i => match s, i with
     | Hp, 0 => Done "Hp" | Hp, 1 => Done "MaxHp" | Atk, _ => Done "Atk" | Alive, _ => Done "Alive" | _, _ => Panics PBadIndex end)%string.
Definition demo_vser (t : demo_v) : val (VT demo t) -> res doc :=
  match t return val (VT demo t) -> res doc with
  | VNum => fun v : quad Z Z => ok (DSeq [DInt (addend v); DInt (vmin v); DInt (vmax v); DInt (mult v)])
  | VBool => fun b : bool => ok (DBool b)
  end.
Definition demo_vde (t : demo_v) : doc -> res (val (VT demo t)) :=
  match t return doc -> res (val (VT demo t)) with
  | VNum => fun d => match d with DSeq [DInt a; DInt b; DInt c; DInt e] => @ok (quad Z Z) (Quad a b c e) | _ => err end
  | VBool => fun d => match d with DBool b => @ok bool b | _ => err end
  end.
Definition demoC : Codec demo intQ := @Build_Codec demo intQ true true (fun _ => true) demo_vser demo_vde
  (fun z : Z => ok (DInt z)) (fun d => match d with DInt z => @ok Z z | _ => err end).
Definition all_names {P} (N : StatNames P) (l : list (sty P)) : registry P := rops_run N (map RRegister l).
Definition demo_reg : registry demo := all_names saveN [Hp; Atk; Alive].
(** The demo program with [Alive] placed before [Atk]. *)
Definition moved (s : demo_s) : Z := match s with Alive => 4000 | Atk => 4096 | Hp => 4224 end.
Definition demo2 : Prog := readdress demo moved.
Definition save2N : StatNames demo2 := re_names demo moved saveN.
Definition demo2C : Codec demo2 intQ := re_codec demo moved demoC.
Definition demo2_reg : registry demo2 := all_names save2N [Hp; Atk; Alive].
(** Observers at plain types. *)
Definition saved (l : list dop) : option doc := match ser_map saveN demoC (demo_run l) with Done o => o | _ => None end.
Definition load (d : doc) : map_t demo intQ := match de_map demoC (WReg demo_reg) d with Done (Some m) => m | _ => [] end.
Definition load2 (d : doc) : map_t demo2 intQ := match de_map demo2C (WReg demo2_reg) d with Done (Some m) => m | _ => [] end.
Definition loads (d : doc) : bool := match de_map demoC (WReg demo_reg) d with Done (Some _) => true | _ => false end.
(** How loading ends in a world: with a map, with an error, or by a panic. *)
Inductive ended : Type := Loaded | Refused | Panicked (p : panic) | Undefined.
Definition how {A} (r : res A) : ended :=
  match r with Done (Some _) => Loaded | Done None => Refused | Panics p => Panicked p | _ => Undefined end.
Definition loading (w : dworld demo) (d : doc) : ended := how (de_map demoC w d).
Definition loading1 (d : doc) : ended := loading (WReg demo_reg) d.
Definition loading2 (d : doc) : ended := how (de_map demo2C (WReg demo2_reg) d).
Definition query_atk (m : map_t demo intQ) : outcome (quad Z Z) := m_query bs_new m (@Aggregate intQ 0) atk.
Definition leaked_types (d : doc) : list demo_v := map (fun b : buffer demo => b_ty b : demo_v) (de_leaked demoC (WReg demo_reg) d).
Definition alive2 : inst demo2 := @Inst demo2 Alive 0.
Definition atk2 : inst demo2 := @Inst demo2 Atk 0.
Definition get_alive2 (bs : list comparison -> bsres) (m : map_t demo2 intQ) (q : qualifier intQ) : outcome (option bool) := m_get bs m q alive2.
Definition get_atk2 (bs : list comparison -> bsres) (m : map_t demo2 intQ) (q : qualifier intQ) : outcome (option (quad Z Z)) := m_get bs m q atk2.
Definition eval_alive2 (bs : list comparison -> bsres) (m : map_t demo2 intQ) (x : qquery intQ) : outcome bool := m_eval bs m x alive2.
Definition entry_of (q : qualifier intQ) (n : string) (v : doc) : doc :=
  DSeq [DMap [("any_of", DInt (any_of q)); ("all_of", DInt (all_of q))]; DStr n; v]%string.
Definition map_of (l : list doc) : doc := DMap [("inner"%string, DSeq l)].
Definition dnum (x : Z) : doc := DSeq [DInt x; DInt (-1000); DInt 1000; DInt 1].
