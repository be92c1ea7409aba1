(** C70, continued: the check of strings. *)
From Coq Require Import String Ascii ZArith List.
From Verif Require Import M_Outcome M_Serde M_Bytes M_Utf8 S_Bytes S_Utf8 L_Utf8.
Import ListNotations.
Local Open Scope Z_scope.

(** std's check accepts exactly the encodings of characters, which are determined by their bytes. *)
Theorem C70_utf8 :
  (forall bs, Forall is_byte bs -> (from_utf8 bs = true <-> exists cs, Forall scalar cs /\ bs = encode_all cs)) /\
  (forall cs cs', Forall scalar cs -> Forall scalar cs' -> encode_all cs = encode_all cs' -> cs = cs') /\
  (forall cs, Forall scalar cs -> exists s, is_str s cs) /\
  (forall s, utf8_check s = true <-> exists cs, is_str s cs).
Proof. exact C70_utf8_proof. Qed.
Print Assumptions C70_utf8.
(** a, e with acute, the euro sign, the last character; overlong forms, a surrogate and what is too large. *)
Example C70_utf8_case :
  encode_all [97; 233; 8364; 1114111] = [97; 195; 169; 226; 130; 172; 244; 143; 191; 191] /\
  from_utf8 [97; 195; 169; 226; 130; 172; 244; 143; 191; 191] = true /\
  map from_utf8 [[192; 128]; [193; 191]; [224; 159; 191]; [237; 160; 128]; [240; 143; 191; 191]; [244; 144; 128; 128]; [128]; [195]; [226; 130]; [245; 128; 128; 128]] = repeat false 10.
Proof. repeat split. Qed.
(** Every [str], whatever its characters, is read back; what is read is a [str], its length in bytes in front. *)
Theorem C70_strings :
  (forall s cs, is_str s cs -> Z.of_nat (List.length (encode_all cs)) < 2 ^ 64 -> spells (take_str utf8_check) (put_str s) s) /\
  (forall bs s rest, Forall is_byte bs -> (take_str utf8_check bs = ok (s, rest) <->
     exists l cs, is_str s cs /\ bs = l ++ encode_all cs ++ rest /\ varint 10 1 l (Z.of_nat (List.length (encode_all cs))))).
Proof. exact C70_strings_proof. Qed.
Print Assumptions C70_strings.
Example C70_strings_case :
  option_map text (match take_str utf8_check [3; 97; 195; 169; 7] with Done (Some (s, _)) => Some s | _ => None end) = Some [97; 195; 169] /\
  take_str utf8_check [2; 97; 195; 169] = err /\ take_str utf8_check [3; 97; 195; 40] = err.
Proof. repeat split. Qed.
