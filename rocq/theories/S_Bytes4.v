(** The demo program with the stat [Alive] marked [no_serialize]. *)
From Coq Require Import ZArith List Bool.
From Verif Require Import M_Outcome M_Ints M_Value M_Types M_Qualifier M_Search M_Stat M_StatMap M_HashMap M_Registry M_Serde M_Bytes
  S_Search S_StatMap S_Demo S_Serde S_Bytes.
Import ListNotations.
Definition hideB : BCodec demo intQ := @Build_BCodec demo intQ (fun s : demo_s => match s with Alive => false | _ => true end) (fun _ => true) demo_vput demo_vtake
  (fun z : Z => ok (put_u32 z)) take_u32.
Definition hiding (l : list dop) : ended := how (put_map saveN hideB (demo_run l)).
Definition unhiding (bs : bytes) : ended := how (take_map hideB (WReg demo_reg) bs).
Definition unregistered (bs : bytes) : ended := how (take_map demoB WNoResource bs).
