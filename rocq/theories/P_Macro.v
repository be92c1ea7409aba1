(** C69: which items [#[derive(Stat)]] accepts. *)
From Coq Require Import String ZArith List Bool Lia.
From Verif Require Import M_Outcome M_Derive M_Macro S_Derive S_Macro L_Macro2.
Import ListNotations.
Local Open Scope string_scope.
Local Open Scope list_scope.
Local Open Scope Z_scope.

(** Accepted are exactly the unit structs and the fieldless enums with integer literals as
    discriminants (those of C40 that get indices), whose attributes declare a value type. *)
Theorem C69_accepts_iff : forall (T : Type) (parse : string -> option T) oc i g,
  derive_stat parse oc i = Accept g <-> exists t, declares parse (it_attrs i) t /\ generates oc (it_data i) t g.
Proof. exact C69_accepts_iff_proof. Qed.
Print Assumptions C69_accepts_iff.
Example C69_accepts_case :
  derive_stat demo_type true (Item [AOther; AArgs [word "debug"; value_is "u8"]; ABare; AArgs [value_is "i32"]] enum_efgh)
    = Accept (GEnum true enum_num [2; 0; 1; 3]) /\
  derive_stat demo_type true (Item [AArgs [value_is "u8"; unit_is "m"; value_is "i32"]] (DStruct FUnit)) = Accept (GUnit false).
Proof. split; reflexivity. Qed.

(** Refused are all others, with the first complaint in this order: a faulty [value], none, the
    kind of item, a variant with fields, a discriminant. *)
Theorem C69_refused_iff : forall (T : Type) (parse : string -> option T) oc i w,
  derive_stat parse oc i = Abort w <-> refused parse oc i w.
Proof. exact C69_refused_iff_proof. Qed.
Print Assumptions C69_refused_iff.
Example C69_refused_case :
  derive_stat demo_type true (Item [AArgs [value_is "i32"; Meta (PIdent "value") [TEq; TOther]]] DUnion) = Abort NotString /\
  derive_stat demo_type true (Item [AArgs [value_is "i33"]] DUnion) = Abort BadType /\
  derive_stat demo_type true (Item [AArgs [Meta (PIdent "value") [TOther]]; ABare] DUnion) = Abort NoValue /\
  derive_stat demo_type true (Item [AArgs [value_is "i32"]] DUnion) = Abort NoUnions /\
  derive_stat demo_type true (Item [AArgs [value_is "i32"]] (DStruct FSome)) = Abort StructFields /\
  derive_stat demo_type true (Item [AArgs [value_is "i32"]] (DEnum [MVariant "A" FUnit (Some DExpr) false; MVariant "B" FSome None false])) = Abort VariantFields /\
  derive_stat demo_type true (Item [AArgs [value_is "i32"]] (DEnum [plain_v "A"; MVariant "B" FUnit (Some DExpr) false])) = Abort NotNumber /\
  derive_stat demo_type true (Item [AArgs [value_is "i32"]] (DEnum [num_v "A" 18446744073709551616])) = Abort NotU64 /\
  derive_stat demo_type true (Item [AArgs [value_is "i32"]] (DEnum [num_v "A" 18446744073709551615; plain_v "B"])) = Abort Overflow /\
  derive_stat demo_type false (Item [AArgs [value_is "i32"]] (DEnum [num_v "A" 18446744073709551615; plain_v "B"]))
    = Accept (GEnum true [exp "A" 18446744073709551615; imp "B"] [18446744073709551615; 0]).
Proof. repeat split; reflexivity. Qed.

(** An enum the compiler accepts, fieldless and with literals, is accepted by the macro once a
    value type is declared; whether its indices round trip is decided as in C40. *)
Theorem C69_enum : forall (T : Type) (parse : string -> option T) oc i t l,
  declares parse (it_attrs i) t -> it_data i = DEnum l -> Forall simple l -> accepted (map as_variant l) ->
  exists ix, derive_stat parse oc i = Accept (GEnum t (map as_variant l) ix) /\
    ((forall k, (k < List.length l)%nat -> d_from_index (map as_variant l) ix (d_as_index ix k) = Done k) <-> gap (map as_variant l)).
Proof. exact C69_enum_proof. Qed.
Print Assumptions C69_enum.
Example C69_enum_case :
  declares demo_type [AArgs [value_is "i32"]] true /\ Forall simple [num_v "E" 2; num_v "F" 0; plain_v "G"; num_v "H" 3] /\
  map as_variant [num_v "E" 2; num_v "F" 0; plain_v "G"; num_v "H" 3] = enum_num /\ gap enum_num.
Proof.
  split; [|split; [repeat constructor; discriminate|split; [reflexivity|left; reflexivity]]]. split.
  - intros m w [<- |[]] H. destruct H as [l _ E H|s E H]; [injection E as <-; exact (H _ _ eq_refl)|injection E as <-; discriminate H].
  - exists [], (value_is "i32"), [], "i32". repeat split. intros m [].
Qed.

(** Attributes of other names, [#[stat]] without arguments, and bare arguments other than [value]
    change nothing. *)
Theorem C69_ignored : forall (T : Type) (parse : string -> option T) oc d l1 l2,
  (forall a, a = AOther \/ a = ABare -> derive_stat parse oc (Item (l1 ++ a :: l2) d) = derive_stat parse oc (Item (l1 ++ l2) d)) /\
  (forall n p q, n <> "value" -> derive_stat parse oc (Item (l1 ++ AArgs (p ++ word n :: q) :: l2) d) = derive_stat parse oc (Item (l1 ++ AArgs (p ++ q) :: l2) d)).
Proof. exact C69_ignored_proof. Qed.
Print Assumptions C69_ignored.
Example C69_ignored_case :
  derive_stat demo_type true (Item [ABare; AArgs [word "x"; value_is "i32"; word "y"]; AOther] (DStruct FUnit)) = derive_stat demo_type true (Item [AArgs [value_is "i32"]] (DStruct FUnit)).
Proof. reflexivity. Qed.

(** Not so arguments with a value of their own: after [unit = "m"] the rest of the attribute is
    skipped without a word, and a [value] given there is reported missing. *)
Theorem C69_value_given_refuted : exists (a b : meta) (d : data),
  says a = Some "i32" /\ (exists s, mt_path b = PIdent "unit" /\ mt_tail b = [TEq; TStr s]) /\
  derive_stat demo_type true (Item [AArgs [b; a]] d) = Abort NoValue /\
  derive_stat demo_type true (Item [AArgs [a; b]] d) = Accept (GUnit true).
Proof. exact C69_value_given_refuted_proof. Qed.
Print Assumptions C69_value_given_refuted.
Example C69_value_given_case :
  derive_stat demo_type true (Item [AArgs [unit_is "m"; value_is "i32"]; AArgs [value_is "u8"]] enum_efgh) = Accept (GEnum false enum_num [2; 0; 1; 3]).
Proof. reflexivity. Qed.
