(** The check that [serde] leaves to std before it hands out a [str]: [core::str::from_utf8]. Not in
    /repo; transcribed from core's [run_utf8_validation] and [utf8_char_width]. The names of stats
    (src/stat.rs:171, read in src/stat.rs:262) and the strings of [StatOnce<String>] and the
    like pass through it. Simplification: runs of ASCII are not skipped word by word. *)
From Coq Require Import String Ascii ZArith List Bool.
From Verif Require Import M_Outcome M_Serde M_Bytes.
Import ListNotations.
Local Open Scope Z_scope.

Definition in_range (lo hi b : Z) : bool := (lo <=? b) && (b <=? hi).
(** The table [UTF8_CHAR_WIDTH]. *)
Definition char_width (b : Z) : Z :=
  if b <? 128 then 1 else if b <? 194 then 0 else if b <? 224 then 2 else if b <? 240 then 3 else if b <? 245 then 4 else 0.
(** [next!() as i8 >= -64] is an error. *)
Definition continues (b : Z) : bool := (if b <? 128 then b else b - 256) <? -64.
Definition second_of_3 (first b : Z) : bool :=
  (first =? 224) && in_range 160 191 b || in_range 225 236 first && in_range 128 191 b ||
  (first =? 237) && in_range 128 159 b || in_range 238 239 first && in_range 128 191 b.
Definition second_of_4 (first b : Z) : bool :=
  (first =? 240) && in_range 144 191 b || in_range 241 243 first && in_range 128 191 b || (first =? 244) && in_range 128 143 b.
Fixpoint from_utf8 (bs : bytes) : bool :=
  match bs with
  | [] => true
  | first :: r =>
      if 128 <=? first then
        let w := char_width first in
        if w =? 2 then match r with b1 :: r' => continues b1 && from_utf8 r' | [] => false end
        else if w =? 3 then match r with b1 :: b2 :: r' => second_of_3 first b1 && continues b2 && from_utf8 r' | _ => false end
        else if w =? 4 then match r with b1 :: b2 :: b3 :: r' => second_of_4 first b1 && continues b2 && continues b3 && from_utf8 r' | _ => false end
        else false
      else from_utf8 r
  end.
(** On the bytes of a string. *)
Definition utf8_check (s : string) : bool := from_utf8 (map (fun c => Z.of_nat (nat_of_ascii c)) (list_ascii_of_string s)).
