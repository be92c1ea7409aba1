(** Serialization of stat maps (src/stat_map.rs:64-69, 380-455; src/stat.rs:39-93, 248-275;
    the derive on [Qualifier], src/qualifier.rs:78-84). *)
From Coq Require Import String ZArith List Bool.
From Verif Require Import M_Outcome M_Value M_Qualifier M_Stat M_StatMap M_HashMap M_Registry.
Import ListNotations.
Local Open Scope Z_scope.

(** A document: the part of serde's data model used here. *)
Inductive doc : Type :=
| DNull
| DBool (b : bool)
| DInt (z : Z)
| DStr (s : string)
| DSeq (l : list doc)
| DMap (l : list (string * doc)).

(** [Result]: [Done None] is [Err]; error messages are not modelled. *)
Definition res (A : Type) : Type := outcome (option A).
Definition rbind {A B} (m : res A) (k : A -> res B) : res B :=
  let! o := m in match o with Some x => k x | None => Done None end.
Notation "'let?' x := m 'in' k" := (rbind m (fun x => k)) (at level 200, x pattern, right associativity).
Definition ok {A} (x : A) : res A := Done (Some x).
Definition err {A} : res A := Done None.

(** The data format and the user's implementations.
    [c_named]: structs are written as maps from field names (JSON) or as sequences (postcard).
    [c_strict]: the format refuses a sequence with elements left over by the visitor (JSON does).
    [c_serial T]: the vtable of [T] was made by [StatVTable::of], not by [no_serialize].
    The rest are the [Serialize]/[Deserialize] impls of value types and flags. *)
Record Codec (P : Prog) (Q : QFlag) : Type := {
  c_named : bool;
  c_strict : bool;
  c_serial : sty P -> bool;
  c_vser : forall t, val (VT P t) -> res doc;
  c_vde : forall t, doc -> res (val (VT P t));
  c_qser : qcar Q -> res doc;
  c_qde : doc -> res (qcar Q)
}.
Arguments c_named {P Q}.
Arguments c_strict {P Q}.
Arguments c_serial {P Q}.
Arguments c_vser {P Q}.
Arguments c_vde {P Q}.
Arguments c_qser {P Q}.
Arguments c_qde {P Q}.

(** What [derive(Serialize)] writes for a struct with named fields. *)
Definition ser_struct (named : bool) (fs : list (string * doc)) : doc :=
  if named then DMap fs else DSeq (map snd fs).

Section Serde.
  Context {P : Prog} {Q : QFlag} (N : StatNames P) (C : Codec P Q).
  Notation V t := (val (VT P t)).

  (** *** Writing *)
  (** derive on [Qualifier] (src/qualifier.rs:78-84) *)
  Definition ser_qual (q : qualifier Q) : res doc :=
    let? a := c_qser C (any_of q) in
    let? b := c_qser C (all_of q) in
    ok (ser_struct (c_named C) [("any_of", a); ("all_of", b)]%string).
  (** [as_serialize] of the vtable (src/stat.rs:51, 86) followed by the impl it points to. *)
  Definition ser_value (T : sty P) (b : buffer P) : res doc :=
    if c_serial C T then let! v := buf_ref P (vt_value P T) b in c_vser C (vt_value P T) v
    else Panics PNoSerialize.
  (** [Serialize for StatMapEntry] (src/stat_map.rs:380-388): qualifier, name, value. *)
  Definition ser_entry (e : entry P Q (buffer P)) : res doc :=
    let? q := ser_qual (e_qual e) in
    let! n := sn_name N (si_ty (e_stat e)) (si_index (e_stat e)) in
    let? v := ser_value (si_ty (e_stat e)) (e_val e) in
    ok (DSeq [q; DStr n; v]).
  Fixpoint ser_entries (m : map_t P Q) : res (list doc) :=
    match m with
    | [] => ok []
    | e :: m' => let? d := ser_entry e in let? l := ser_entries m' in ok (d :: l)
    end.
  (** derive on [StatMap] (src/stat_map.rs:64-69) *)
  Definition ser_map (m : map_t P Q) : res doc :=
    let? l := ser_entries m in ok (ser_struct (c_named C) [("inner"%string, DSeq l)]).

  (** *** Reading *)
  (** derive(Deserialize) for a struct: from a sequence the fields in order; from a map the fields
      by name, in the order of the document, unknown fields skipped, a repeated or missing field
      refused. *)
  Fixpoint de_fields2 {A} (n1 n2 : string) (f : doc -> res A) (o1 o2 : option A) (l : list (string * doc))
      : res (A * A) :=
    match l with
    | [] => match o1, o2 with Some a, Some b => ok (a, b) | _, _ => err end
    | (n, d) :: l' =>
        if String.eqb n n1
        then match o1 with Some _ => err | None => let? a := f d in de_fields2 n1 n2 f (Some a) o2 l' end
        else if String.eqb n n2
        then match o2 with Some _ => err | None => let? b := f d in de_fields2 n1 n2 f o1 (Some b) l' end
        else de_fields2 n1 n2 f o1 o2 l'
    end.
  Fixpoint de_fields1 {A} (n1 : string) (f : doc -> res A) (o1 : option A) (l : list (string * doc)) : res A :=
    match l with
    | [] => match o1 with Some a => ok a | None => err end
    | (n, d) :: l' =>
        if String.eqb n n1
        then match o1 with Some _ => err | None => let? a := f d in de_fields1 n1 f (Some a) l' end
        else de_fields1 n1 f o1 l'
    end.
  Definition leftover (l : list doc) : bool := c_strict C && match l with [] => false | _ => true end.

  Definition de_qual (d : doc) : res (qualifier Q) :=
    match d with
    | DMap l => let? p := de_fields2 "any_of" "all_of" (c_qde C) None None l in ok (Qual (fst p) (snd p))
    | DSeq (d1 :: d2 :: l) =>
        let? a := c_qde C d1 in let? b := c_qde C d2 in if leftover l then err else ok (Qual a b)
    | DSeq [d1] => let? a := c_qde C d1 in err
    | _ => err
    end.

  (** The world during deserialization: no world in scope (outside of
      [bevy_serde_lens] deserialization), a world without the resource, or with it. *)
  Inductive dworld : Type := WNoScope | WNoResource | WReg (r : registry P).

  (** [Deserialize for StatInst] (src/stat.rs:257-275). [World::resource] panics without the
      resource. *)
  Definition de_stat (w : dworld) (d : doc) : res (inst P) :=
    match d with
    | DStr n =>
        match w with
        | WNoScope => err
        | WNoResource => Panics PUnwrap
        | WReg r => match reg_get r n with Some s => ok s | None => err end
        end
    | _ => err
    end.
  (** [deserialize] of the vtable (src/stat.rs:52-56, 87), through [DynSeed] (448-455). *)
  Definition de_value (T : sty P) (d : doc) : res (buffer P) :=
    if c_serial C T then
      let! _ := validate_ty P (vt_value P T) in
      let? v := c_vde C (vt_value P T) d in
      let! b := buf_from P (vt_value P T) v in ok b
    else Panics PNoSerialize.

  (** [TupleSeed::visit_seq] (427-446): each element is decoded before the next is asked for. *)
  Definition de_triple (w : dworld) (l : list doc) : res (entry P Q (buffer P)) :=
    match l with
    | [] => err
    | d1 :: l1 =>
        let? q := de_qual d1 in
        match l1 with
        | [] => err
        | d2 :: l2 =>
            let? s := de_stat w d2 in
            match l2 with
            | [] => err
            | d3 :: _ => let? b := de_value (si_ty s) d3 in ok (Entry s q b)
            end
        end
    end.
  (** [Deserialize for StatMapEntry] (390-400). *)
  Definition de_entry (w : dworld) (d : doc) : res (entry P Q (buffer P)) :=
    match d with
    | DSeq l => let? e := de_triple w l in if leftover (skipn 3 l) then err else ok e
    | _ => err
    end.
  (** A buffer that was decoded and then thrown away with the tuple [(Qualifier, StatInst,
      Buffer)]: [Buffer] has no destructor, so the value in it is leaked. *)
  Definition de_leaked (w : dworld) (d : doc) : list (buffer P) :=
    match d with
    | DSeq l => match de_triple w l with
                | Done (Some e) => if leftover (skipn 3 l) then [e_val e] else []
                | _ => []
                end
    | _ => []
    end.
  (** [Vec<StatMapEntry>]: the first failure ends it, the entries so far are dropped. *)
  Fixpoint de_entries (w : dworld) (l : list doc) : res (map_t P Q) :=
    match l with
    | [] => ok []
    | d :: l' => let? e := de_entry w d in let? m := de_entries w l' in ok (e :: m)
    end.
  Definition de_vec (w : dworld) (d : doc) : res (map_t P Q) :=
    match d with DSeq l => de_entries w l | _ => err end.
  (** derive on [StatMap]: the vector as it was written, not sorted again. *)
  Definition de_map (w : dworld) (d : doc) : res (map_t P Q) :=
    match d with
    | DMap l => de_fields1 "inner" (de_vec w) None l
    | DSeq (d1 :: l) => let? m := de_vec w d1 in if leftover l then err else ok m
    | _ => err
    end.
End Serde.
Arguments dworld : clear implicits.
Arguments WNoScope {P}.
Arguments WNoResource {P}.
Arguments WReg {P}.

(** The same program with its statics at other addresses: another build or another process. *)
Section Readdress.
  Variable P : Prog.
  Variable a : sty P -> Z.
  Definition readdress : Prog := {|
    vty := vty P; vty_dec := vty_dec P; VT := VT P; v_size := v_size P; v_align := v_align P;
    sty := sty P; sty_dec := sty_dec P; vt_value := vt_value P; vt_addr := a |}.
  Definition re_names (N : StatNames P) : StatNames readdress :=
    @Build_StatNames readdress (sn_values N) (sn_name N).
  Definition re_codec {Q} (C : Codec P Q) : Codec readdress Q :=
    @Build_Codec readdress Q (c_named C) (c_strict C) (c_serial C) (c_vser C) (c_vde C) (c_qser C) (c_qde C).
  Definition re_inst (s : inst P) : inst readdress := @Inst readdress (si_ty s) (si_index s).
  Definition re_buf (b : buffer P) : buffer readdress := @Buf readdress (b_ty b) (b_val b).
  Definition re_entry {Q} (e : entry P Q (buffer P)) : entry readdress Q (buffer readdress) :=
    Entry (re_inst (e_stat e)) (e_qual e) (re_buf (e_val e)).
  Definition re_map {Q} (m : map_t P Q) : map_t readdress Q := map re_entry m.
End Readdress.
