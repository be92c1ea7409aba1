(** Saving stat maps in a byte format that does not describe itself, as tests/serde.rs does with
    postcard: what is read next is decided by the reader, so the stat named in an entry decides how
    its value is read (src/stat_map.rs:64-69, 380-455; src/stat.rs:39-93, 248-275).
    [serialize_seq] writes the number of elements and the elements, [deserialize_seq] reads them
    back; structs are their fields in order, without names or counts. *)
From Coq Require Import String Ascii ZArith List Bool.
From Verif Require Import M_Outcome M_Value M_Qualifier M_Stat M_StatMap M_HashMap M_Registry M_Serde.
Import ListNotations.
Local Open Scope Z_scope.

(** Bytes are numbers from 0 to 255. *)
Definition bytes : Type := list Z.
Definition reader (A : Type) : Type := bytes -> res (A * bytes).

(** *** postcard's primitives *)
(** Varints: seven bits per byte, least first, the highest bit set on all but the last byte.
    [k]: how many bytes at most (10 for [u64] and [usize], 5 for [u32]). *)
Fixpoint put_varint (k : nat) (n : Z) : bytes :=
  match k with
  | O => []
  | S k' => if n <? 128 then [n] else (n mod 128 + 128) :: put_varint k' (n / 128)
  end.
(** [top]: the largest [k]th byte (1 for [u64], 15 for [u32]). *)
Fixpoint take_varint (k : nat) (top : Z) (bs : bytes) : res (Z * bytes) :=
  match k with
  | O => err
  | S k' =>
      match bs with
      | [] => err
      | b :: bs' =>
          if b <? 128 then if match k' with O => top <? b | S _ => false end then err else ok (b, bs')
          else let? p := take_varint k' top bs' in ok (b mod 128 + 128 * fst p, snd p)
      end
  end.
Definition put_u64 (n : Z) : bytes := put_varint 10 n.
Definition take_u64 : reader Z := take_varint 10 1.
Definition put_u32 (n : Z) : bytes := put_varint 5 n.
Definition take_u32 : reader Z := take_varint 5 15.
(** [i32] by zigzag *)
Definition put_i32 (n : Z) : bytes := put_u32 (if n <? 0 then - 2 * n - 1 else 2 * n).
Definition take_i32 : reader Z := fun bs =>
  let? p := take_u32 bs in ok (if Z.even (fst p) then fst p / 2 else - ((fst p + 1) / 2), snd p).
Definition put_bool (b : bool) : bytes := [if b then 1 else 0].
Definition take_bool : reader bool := fun bs =>
  match bs with
  | b :: bs' => if b =? 0 then ok (false, bs') else if b =? 1 then ok (true, bs') else err
  | [] => err
  end.
(** Strings: their length in bytes, and the bytes, which have to be UTF-8. *)
Definition put_str (s : string) : bytes :=
  put_u64 (Z.of_nat (String.length s)) ++ map (fun c => Z.of_nat (nat_of_ascii c)) (list_ascii_of_string s).
Definition take_bytes (n : Z) (bs : bytes) : res (bytes * bytes) :=
  if n <=? Z.of_nat (List.length bs) then ok (firstn (Z.to_nat n) bs, skipn (Z.to_nat n) bs) else err.
Definition take_str (utf8 : string -> bool) : reader string := fun bs =>
  let? p := take_u64 bs in
  let? q := take_bytes (fst p) (snd p) in
  let s := string_of_list_ascii (map (fun b => ascii_of_nat (Z.to_nat b)) (fst q)) in
  if utf8 s then ok (s, snd q) else err.

(** *** Stat maps *)
(** The user's impls: how values of a type and flags are written and read. *)
Record BCodec (P : Prog) (Q : QFlag) : Type := {
  b_serial : sty P -> bool;
  b_utf8 : string -> bool;
  b_vput : forall t, val (VT P t) -> res bytes;
  b_vtake : forall t, reader (val (VT P t));
  b_qput : qcar Q -> res bytes;
  b_qtake : reader (qcar Q)
}.
Arguments b_serial {P Q}.
Arguments b_utf8 {P Q}.
Arguments b_vput {P Q}.
Arguments b_vtake {P Q}.
Arguments b_qput {P Q}.
Arguments b_qtake {P Q}.

Section Bytes.
  Context {P : Prog} {Q : QFlag} (N : StatNames P) (C : BCodec P Q).

  (** derive on [Qualifier] (src/qualifier.rs:78-84) *)
  Definition put_qual (q : qualifier Q) : res bytes :=
    let? a := b_qput C (any_of q) in let? b := b_qput C (all_of q) in ok (a ++ b).
  (** [as_serialize] of the vtable (src/stat.rs:51, 86) *)
  Definition put_value (T : sty P) (b : buffer P) : res bytes :=
    if b_serial C T then let! v := buf_ref P (vt_value P T) b in b_vput C (vt_value P T) v
    else Panics PNoSerialize.
  (** [Serialize for StatMapEntry] (380-388) *)
  Definition put_entry (e : entry P Q (buffer P)) : res bytes :=
    let? q := put_qual (e_qual e) in
    let! n := sn_name N (si_ty (e_stat e)) (si_index (e_stat e)) in
    let? v := put_value (si_ty (e_stat e)) (e_val e) in
    ok (put_u64 3 ++ q ++ put_str n ++ v).
  Fixpoint put_entries (m : map_t P Q) : res bytes :=
    match m with
    | [] => ok []
    | e :: m' => let? d := put_entry e in let? l := put_entries m' in ok (d ++ l)
    end.
  (** derive on [StatMap] (64-69): the one field, a [Vec] *)
  Definition put_map (m : map_t P Q) : res bytes :=
    let? l := put_entries m in ok (put_u64 (Z.of_nat (List.length m)) ++ l).

  Definition take_qual : reader (qualifier Q) := fun bs =>
    let? p := b_qtake C bs in let? q := b_qtake C (snd p) in ok (Qual (fst p) (fst q), snd q).
  (** [Deserialize for StatInst] (src/stat.rs:257-275) *)
  Definition take_stat (w : dworld P) : reader (inst P) := fun bs =>
    let? p := take_str (b_utf8 C) bs in
    match w with
    | WNoScope => err
    | WNoResource => Panics PUnwrap
    | WReg r => match reg_get r (fst p) with Some s => ok (s, snd p) | None => err end
    end.
  (** [deserialize] of the vtable (src/stat.rs:52-56, 87), through [DynSeed] (448-455) *)
  Definition take_value (T : sty P) : reader (buffer P) := fun bs =>
    if b_serial C T then
      let! _ := validate_ty P (vt_value P T) in
      let? p := b_vtake C (vt_value P T) bs in
      let! b := buf_from P (vt_value P T) (fst p) in ok (b, snd p)
    else Panics PNoSerialize.
  (** [TupleSeed::visit_seq] (427-446) over postcard's sequences: [n] elements are announced, each
      is read when asked for, and announced elements not asked for are not skipped. *)
  Definition take_entry (w : dworld P) : reader (entry P Q (buffer P)) := fun bs =>
    let? n := take_u64 bs in
    if fst n <? 1 then err else
    let? q := take_qual (snd n) in
    if fst n <? 2 then err else
    let? s := take_stat w (snd q) in
    if fst n <? 3 then err else
    let? b := take_value (si_ty (fst s)) (snd s) in
    ok (Entry (fst s) (fst q) (fst b), snd b).
  Fixpoint take_entries (w : dworld P) (n : nat) (bs : bytes) : res (map_t P Q * bytes) :=
    match n with
    | O => ok ([], bs)
    | S n' => let? e := take_entry w bs in let? m := take_entries w n' (snd e) in ok (fst e :: fst m, snd m)
    end.
  Definition take_map (w : dworld P) : reader (map_t P Q) := fun bs =>
    let? n := take_u64 bs in take_entries w (Z.to_nat (fst n)) (snd n).
End Bytes.
