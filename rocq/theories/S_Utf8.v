(** UTF-8 (RFC 3629): the encoding of characters. *)
From Coq Require Import String Ascii ZArith List.
From Verif Require Import M_Bytes S_Bytes.
Import ListNotations.
Local Open Scope Z_scope.

(** A Unicode scalar value, Rust's [char]. *)
Definition scalar (c : Z) : Prop := 0 <= c < 55296 \/ 57344 <= c < 1114112.
Definition encode (c : Z) : bytes :=
  if c <? 128 then [c]
  else if c <? 2048 then [192 + c / 64; 128 + c mod 64]
  else if c <? 65536 then [224 + c / 4096; 128 + c / 64 mod 64; 128 + c mod 64]
  else [240 + c / 262144; 128 + c / 4096 mod 64; 128 + c / 64 mod 64; 128 + c mod 64].
Definition encode_all (cs : list Z) : bytes := flat_map encode cs.
(** A [str]: the bytes of some characters. *)
Definition is_str (s : string) (cs : list Z) : Prop := Forall scalar cs /\ text s = encode_all cs.
