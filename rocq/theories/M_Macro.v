(** The whole of [#[derive(Stat)]] (derive/src/lib.rs:36-178), from the item to the generated
    impl; the generated functions are those of M_Derive.v. *)
From Coq Require Import String ZArith List Bool.
From Verif Require Import M_Outcome M_Derive.
Import ListNotations.
Local Open Scope Z_scope.

(** *** The item as [syn] parses it *)
(** A token after a path inside [#[stat(…)]]: [=], a string literal, anything else but a comma. *)
Inductive tok : Type := TEq | TStr (s : string) | TOther.
(** What stands between two commas: an identifier, a longer path ([a::b]), or something that is no
    path (also nothing at all); and the tokens that follow it. *)
Inductive mpath : Type := PIdent (s : string) | PLong | PBad.
Record meta : Type := Meta { mt_path : mpath; mt_tail : list tok }.
(** An attribute of the item: one of another name; [#[stat]] or [#[stat = …]]; [#[stat(…)]] (a
    comma at the end makes no difference). *)
Inductive attr : Type := AOther | ABare | AArgs (l : list meta).
(** Fields of a struct or a variant: none and no brackets, or some brackets (also empty ones). *)
Inductive fields : Type := FUnit | FSome.
(** The expression after [=] in a variant: an integer literal ([base10_parse] reads its digits,
    the suffix is ignored), or another expression ([-1], [1 + 1], [b'a']). *)
Inductive disc : Type := DLit (n : N) | DExpr.
Record mvariant : Type := MVariant { mv_name : string; mv_fields : fields; mv_disc : option disc; mv_default : bool }.
Inductive data : Type := DStruct (f : fields) | DEnum (l : list mvariant) | DUnion.
Record item : Type := Item { it_attrs : list attr; it_data : data }.

(** Why the macro stops; [Overflow] is the panic of [last += 1] in a macro built with overflow
    checks. *)
Inductive why : Type := NoValue | NotString | BadType | StructFields | VariantFields | NotNumber | NotU64 | Overflow | NoUnions.
Inductive mres (A : Type) : Type := Accept (a : A) | Abort (w : why).
Arguments Accept {A} a.
Arguments Abort {A} w.
Definition mbind {A B} (m : mres A) (k : A -> mres B) : mres B :=
  match m with Accept a => k a | Abort w => Abort w end.

Section Macro.
  (** [s.parse::<Type>()] *)
  Variable T : Type.
  Variable parse_type : string -> option T.

  (** One call of the closure (50-61) on what follows the path: [CErr] if it returns [Err]
      (from [parse.value()?]), [CAbort] if it aborts, else the value and the tokens left. *)
  Inductive called : Type := CErr | CAbort (w : why) | COk (v : option T) (left : list tok).
  Definition closure (m : meta) (v : option T) : called :=
    match mt_path m with
    | PBad => CErr
    | PIdent n =>
        if String.eqb n "value" then
          match mt_tail m with
          | TEq :: TStr s :: l => match parse_type s with Some t => COk (Some t) l | None => CAbort BadType end
          | TEq :: _ => CAbort NotString
          | _ => CErr
          end
        else COk v (mt_tail m)
    | PLong => COk v (mt_tail m)
    end.
  (** [parse_nested_meta] of syn: a path, the closure, then the end or a comma. Its error is thrown
      away ([let _ =], 49), the values assigned before it stay. *)
  Fixpoint nested (l : list meta) (v : option T) : mres (option T) :=
    match l with
    | [] => Accept v
    | m :: l' =>
        match closure m v with
        | CErr => Accept v
        | CAbort w => Abort w
        | COk v' [] => nested l' v'
        | COk v' (_ :: _) => Accept v'
        end
    end.
  (** The loop over the attributes (45-62). *)
  Fixpoint attributes (l : list attr) (v : option T) : mres (option T) :=
    match l with
    | [] => Accept v
    | AArgs ms :: l' => mbind (nested ms v) (attributes l')
    | _ :: l' => attributes l' v
    end.

  (** The check of the variants (104-114) and the indices (120-139). *)
  Definition plain_variant (v : mvariant) : bool := match mv_fields v with FUnit => true | FSome => false end.
  Fixpoint m_indices (oc : bool) (last : Z) (l : list mvariant) : mres (list Z) :=
    match l with
    | [] => Accept []
    | v :: l' =>
        match mv_disc v with
        | None =>
            if u64_max <? last + 1
            then if oc then Abort Overflow else mbind (m_indices oc 0 l') (fun r => Accept (0 :: r))
            else mbind (m_indices oc (last + 1) l') (fun r => Accept (last + 1 :: r))
        | Some DExpr => Abort NotNumber
        | Some (DLit n) => if Z.of_N n <=? u64_max then mbind (m_indices oc (Z.of_N n) l') (fun r => Accept (Z.of_N n :: r)) else Abort NotU64
        end
    end.

  (** What is generated: [type Value] and the parameters of the functions in M_Derive.v. *)
  Inductive generated : Type := GUnit (t : T) | GEnum (t : T) (l : list variant) (ix : list Z).
  Definition as_variant (v : mvariant) : variant :=
    Variant (mv_name v) (match mv_disc v with Some (DLit n) => Some (Z.of_N n) | _ => None end) (mv_default v).
  Definition derive_stat (oc : bool) (i : item) : mres generated :=
    mbind (attributes (it_attrs i) None) (fun v =>
    match v with
    | None => Abort NoValue
    | Some t =>
        match it_data i with
        | DStruct FUnit => Accept (GUnit t)
        | DStruct FSome => Abort StructFields
        | DEnum l =>
            if forallb plain_variant l
            then mbind (m_indices oc 0 l) (fun ix => Accept (GEnum t (map as_variant l) ix))
            else Abort VariantFields
        | DUnion => Abort NoUnions
        end
    end).
End Macro.
Arguments closure {T}.
Arguments nested {T}.
Arguments attributes {T}.
Arguments GUnit {T}.
Arguments GEnum {T}.
Arguments derive_stat {T}.
Arguments CErr {T}.
Arguments CAbort {T}.
Arguments COk {T}.
