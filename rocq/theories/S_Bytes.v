(** What a byte format is meant to guarantee. *)
From Coq Require Import String Ascii ZArith List Bool.
From Verif Require Import M_Outcome M_Ints M_Value M_Types M_Qualifier M_Search M_Stat M_StatMap M_HashMap M_Registry M_Serde M_Bytes
  S_StatMap S_Demo S_Serde.
Import ListNotations.
Local Open Scope Z_scope.

Definition is_byte (b : Z) : Prop := 0 <= b < 256.

(** [take] reads exactly [bs] as [x], whatever follows, and refuses every proper beginning of it. *)
Definition spells {A} (take : reader A) (bs : bytes) (x : A) : Prop :=
  (forall rest, take (bs ++ rest) = ok (x, rest)) /\
  (forall p s, bs = p ++ s -> s <> [] -> take p = err).
Definition reads_back {A} (put : A -> res bytes) (take : reader A) (x : A) : Prop :=
  exists bs, put x = ok bs /\ spells take bs x.
(** Whatever the bytes, reading returns, with a result or with an error. *)
Definition returns {A} (take : reader A) : Prop := forall bs, exists o, take bs = Done o.

(** The number whose digits to base 128, least first, are the bytes without their highest bits. *)
Fixpoint digits (l : list Z) : Z :=
  match l with [] => 0 | b :: l' => b mod 128 + 128 * digits l' end.
(** A varint of at most [k] bytes: all but the last have the highest bit. *)
Definition varint (k : nat) (top : Z) (l : bytes) (n : Z) : Prop :=
  exists l0 b, l = l0 ++ [b] /\ Forall (fun x => 128 <= x) l0 /\ b < 128 /\
  (List.length l <= k)%nat /\ (List.length l = k -> b <= top) /\ n = digits l.
Definition text (s : string) : bytes := map (fun c => Z.of_nat (nat_of_ascii c)) (list_ascii_of_string s).

Section Spec.
  Context {P : Prog} {Q : QFlag} (N : StatNames P) (C : BCodec P Q).
  Definition bvalue_back (s : inst P) (b : buffer P) : Prop :=
    b_serial C (si_ty s) = true /\ fits s /\
    exists v, b = Buf (vt_value P (si_ty s)) v /\ reads_back (b_vput C (vt_value P (si_ty s))) (b_vtake C (vt_value P (si_ty s))) v.
  Definition bflag_back (x : qcar Q) : Prop := reads_back (b_qput C) (b_qtake C) x.
  (** The name written for [s] is UTF-8, not longer than memory, and leads back to [s]. *)
  Definition bname_back (r : registry P) (s : inst P) : Prop :=
    exists n, sn_name N (si_ty s) (si_index s) = Done n /\ reg_get r n = Some s /\
    b_utf8 C n = true /\ Z.of_nat (String.length n) < 2 ^ 64.
  Definition bstorable (r : registry P) (e : entry P Q (buffer P)) : Prop :=
    bvalue_back (e_stat e) (e_val e) /\ bflag_back (any_of (e_qual e)) /\ bflag_back (all_of (e_qual e)) /\
    bname_back r (e_stat e).

  (** What bytes have to be to be read as [e], leaving [rest]. *)
  Definition entry_bytes (w : dworld P) (bs : bytes) (e : entry P Q (buffer P)) (rest : bytes) : Prop :=
    exists l k b1 b2 b3 ln n b4 r v,
      bs = l ++ b1 /\ varint 10 1 l k /\ 3 <= k /\
      b_qtake C b1 = ok (any_of (e_qual e), b2) /\ b_qtake C b2 = ok (all_of (e_qual e), b3) /\
      b3 = ln ++ text n ++ b4 /\ varint 10 1 ln (Z.of_nat (String.length n)) /\ b_utf8 C n = true /\
      w = WReg r /\ reg_get r n = Some (e_stat e) /\
      b_serial C (si_ty (e_stat e)) = true /\ fits (e_stat e) /\
      b_vtake C (vt_value P (si_ty (e_stat e))) b4 = ok (v, rest) /\
      e_val e = Buf (vt_value P (si_ty (e_stat e))) v.
  Inductive entries_bytes (w : dworld P) : bytes -> map_t P Q -> bytes -> Prop :=
  | EB_nil : forall bs, entries_bytes w bs [] bs
  | EB_cons : forall bs e b1 m rest, entry_bytes w bs e b1 -> entries_bytes w b1 m rest -> entries_bytes w bs (e :: m) rest.
  (** The user's impls return and hand on bytes. *)
  Definition hands_on {A} (take : reader A) : Prop :=
    forall bs x rest, Forall is_byte bs -> take bs = ok (x, rest) -> Forall is_byte rest.
End Spec.

(** The demo program in postcard: numbers as four [i32]s, flags as [u32]. *)
Definition put_quad (v : quad Z Z) : bytes := put_i32 (addend v) ++ put_i32 (vmin v) ++ put_i32 (vmax v) ++ put_i32 (mult v).
Definition take_quad : reader (quad Z Z) := fun bs =>
  let? a := take_i32 bs in let? b := take_i32 (snd a) in let? c := take_i32 (snd b) in let? d := take_i32 (snd c) in
  ok (Quad (fst a) (fst b) (fst c) (fst d), snd d).
Definition demo_vput (t : demo_v) : val (VT demo t) -> res bytes :=
  match t return val (VT demo t) -> res bytes with
  | VNum => fun v : quad Z Z => ok (put_quad v)
  | VBool => fun b : bool => ok (put_bool b)
  end.
Definition demo_vtake (t : demo_v) : reader (val (VT demo t)) :=
  match t return reader (val (VT demo t)) with VNum => take_quad | VBool => take_bool end.
Definition demoB : BCodec demo intQ := @Build_BCodec demo intQ (fun _ => true) (fun _ => true) demo_vput demo_vtake
  (fun z : Z => ok (put_u32 z)) take_u32.
Definition is_i32 (n : Z) : Prop := - 2 ^ 31 <= n < 2 ^ 31.
Definition quad_i32 (v : quad Z Z) : Prop := is_i32 (addend v) /\ is_i32 (vmin v) /\ is_i32 (vmax v) /\ is_i32 (mult v).
(** Observers at plain types *)
Definition bsaved (l : list dop) : option bytes := match put_map saveN demoB (demo_run l) with Done o => o | _ => None end.
Definition bload (bs : bytes) : option (map_t demo intQ * bytes) :=
  match take_map demoB (WReg demo_reg) bs with Done o => o | _ => None end.
Definition bloading (bs : bytes) : ended := how (take_map demoB (WReg demo_reg) bs).
Definition bloaded (bs : bytes) : map_t demo intQ := match bload bs with Some p => fst p | None => [] end.
Definition bsurplus (bs : bytes) : option bytes := option_map snd (bload bs).
Definition bcount (bs : bytes) : nat := List.length (bloaded bs).
