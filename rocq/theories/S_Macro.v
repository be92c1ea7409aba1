(** What [#[derive(Stat)]] is meant to accept, and demonstration data. *)
From Coq Require Import String ZArith List Bool.
From Verif Require Import M_Outcome M_Derive M_Macro S_Derive.
Import ListNotations.
Local Open Scope string_scope.

(** An argument of the form [value = "s" …]. *)
Definition says (m : meta) : option string :=
  match mt_path m, mt_tail m with
  | PIdent n, TEq :: TStr s :: _ => if String.eqb n "value" then Some s else None
  | _, _ => None
  end.
(** A complete argument: a bare path other than [value], or [value = "s"]. *)
Definition complete (m : meta) : bool :=
  match mt_path m, mt_tail m with
  | PLong, [] => true
  | PIdent n, [] => negb (String.eqb n "value")
  | PIdent n, [TEq; TStr _] => String.eqb n "value"
  | _, _ => false
  end.
(** The arguments looked at: up to the first that is not complete, in each [#[stat(…)]]. *)
Fixpoint reached (l : list meta) : list meta :=
  match l with
  | [] => []
  | m :: l' => m :: if complete m then reached l' else []
  end.
Definition looked_at (l : list attr) : list meta :=
  flat_map (fun a => match a with AArgs ms => reached ms | _ => [] end) l.

Section S.
  Context {T : Type} (parse : string -> option T).
  (** [value = …] with something else than a string, or a string that is no type. *)
  Inductive faulty (m : meta) : why -> Prop :=
  | f_string : forall l, mt_path m = PIdent "value" -> mt_tail m = TEq :: l -> (forall s l', l <> TStr s :: l') -> faulty m NotString
  | f_type : forall s, says m = Some s -> parse s = None -> faulty m BadType.
  (** The attributes declare the value type [t]: nothing looked at is faulty, and the last [value]
      looked at is [t]. *)
  Definition declares (l : list attr) (t : T) : Prop :=
    (forall m w, In m (looked_at l) -> ~ faulty m w) /\
    exists r1 m r2 s, looked_at l = (r1 ++ m :: r2)%list /\ says m = Some s /\ parse s = Some t /\ forall m', In m' r2 -> says m' = None.
  (** Fieldless, with literals for discriminants. *)
  Definition simple (v : mvariant) : Prop := mv_fields v = FUnit /\ mv_disc v <> Some DExpr.
  Definition generates (oc : bool) (d : data) (t : T) (g : generated T) : Prop :=
    (d = DStruct FUnit /\ g = GUnit t) \/
    exists l ix, d = DEnum l /\ Forall simple l /\ indices oc (map as_variant l) = Some ix /\ g = GEnum t (map as_variant l) ix.
  (** The first discriminant that cannot be an index. *)
  Definition bad_index (oc : bool) (l : list mvariant) (w : why) : Prop :=
    exists l1 v l2 ix, l = (l1 ++ v :: l2)%list /\ Forall simple l1 /\ indices oc (map as_variant l1) = Some ix /\
      ((mv_disc v = Some DExpr /\ w = NotNumber) \/
       (exists n, mv_disc v = Some (DLit n) /\ (u64_max < Z.of_N n)%Z /\ w = NotU64) \/
       (mv_disc v = None /\ last ix 0%Z = u64_max /\ oc = true /\ w = Overflow)).
  (** What is wrong with an item, the earliest complaint. *)
  Inductive refused (oc : bool) (i : item) : why -> Prop :=
  | r_faulty : forall r1 m r2 w, looked_at (it_attrs i) = (r1 ++ m :: r2)%list -> (forall m' w', In m' r1 -> ~ faulty m' w') -> faulty m w -> refused oc i w
  | r_no_value : (forall m, In m (looked_at (it_attrs i)) -> says m = None /\ forall w, ~ faulty m w) -> refused oc i NoValue
  | r_struct : forall t, declares (it_attrs i) t -> it_data i = DStruct FSome -> refused oc i StructFields
  | r_union : forall t, declares (it_attrs i) t -> it_data i = DUnion -> refused oc i NoUnions
  | r_variant : forall t l v, declares (it_attrs i) t -> it_data i = DEnum l -> In v l -> mv_fields v = FSome -> refused oc i VariantFields
  | r_index : forall t l w, declares (it_attrs i) t -> it_data i = DEnum l -> (forall v, In v l -> mv_fields v = FUnit) -> bad_index oc l w -> refused oc i w.
End S.

(** Demonstration: types are the names ["i32"] and ["u8"]; [#[stat(value = "i32")]] and others. *)
Definition demo_type (s : string) : option bool := if String.eqb s "i32" then Some true else if String.eqb s "u8" then Some false else None.
Definition value_is (s : string) : meta := Meta (PIdent "value") [TEq; TStr s].
Definition word (s : string) : meta := Meta (PIdent s) [].
Definition unit_is (s : string) : meta := Meta (PIdent "unit") [TEq; TStr s].
Definition plain_v (n : string) : mvariant := MVariant n FUnit None false.
Definition num_v (n : string) (d : N) : mvariant := MVariant n FUnit (Some (DLit d)) false.
Definition enum_efgh : data := DEnum [num_v "E" 2; num_v "F" 0; plain_v "G"; num_v "H" 3].
