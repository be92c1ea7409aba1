(** The demo game (S_DemoGame) with every map saved and loaded after every call. *)
From Coq Require Import String ZArith List Bool.
From Verif Require Import M_Outcome M_Ints M_Value M_Types M_Qualifier M_Search M_Stat M_StatMap M_HashMap M_Pair M_Registry M_Defaults M_Querier M_Serde M_Bytes M_ValueSerde M_ValueBytes
  S_StatMap S_Serde S_Bytes S_Totals S_ValueSerde S_ValueBytes S_EndToEnd S_Demo S_DemoGame S_Reload.
Import ListNotations.
Local Open Scope Z_scope.

Definition often {P Q} (r : registry P) (l : list (mop P Q)) : list (event P Q) := flat_map (fun o => [Call o; Document r; Bytes r]) l.
(** What events make of a map, [None] if something fails. *)
Definition demo_event (m : option (map_t demo intQ)) (x : event demo intQ) : option (map_t demo intQ) :=
  match m with
  | None => None
  | Some m =>
      match x with
      | Call o => match mop_run bs_new m o with Done x => Some (x_map x) | _ => None end
      | Document r =>
          match ser_map saveN demoC m with
          | Done (Some d) => match de_map demoC (WReg r) d with Done o => o | _ => None end
          | _ => None
          end
      | Bytes r =>
          match put_map saveN demoB m with
          | Done (Some b) => match take_map demoB (WReg r) b with Done (Some (m', [])) => Some m' | _ => None end
          | _ => None
          end
      end
  end.
Definition demo_life (l : list (event demo intQ)) : map_t demo intQ := match fold_left demo_event l (Some []) with Some m => m | None => [] end.
Definition survives (l : list (event demo intQ)) : bool := match fold_left demo_event l (Some []) with Some _ => true | None => false end.

(** Entries that documents and bytes can hold. *)
Definition i32b (n : Z) : bool := (- 2 ^ 31 <=? n) && (n <? 2 ^ 31).
Definition demo_fine (e : entry demo intQ (buffer demo)) : bool :=
  match e with
  | Entry (Inst s i) q (Buf t v) =>
      (i =? 0) && (0 <=? any_of q) && (any_of q <? 2 ^ 31) && (0 <=? all_of q) && (all_of q <? 2 ^ 31) &&
      match s, t return val (VT demo t) -> bool with
      | Hp, VNum | Atk, VNum => fun v : quad Z Z => i32b (addend v) && i32b (vmin v) && i32b (vmax v) && i32b (mult v)
      | Alive, VBool => fun _ => true
      | _, _ => fun _ => false
      end v
  end.
(** All maps on the way hold only such. *)
Definition always_fine (l : list (mop demo intQ)) : bool :=
  forallb (fun k => forallb demo_fine (demo_run (firstn k l)) && (List.length (demo_run (firstn k l)) <? 1000)%nat) (seq 0 (S (List.length l))).
Definition all_logs : list (list gedit) := global_log :: map snd own_logs ++ map snd child_logs.

(** A stat that is registered under another's name in the process that loads. *)
Definition swapped_reg : registry demo := [("Hp"%string, atk); ("Atk"%string, hp); ("Alive"%string, alive)].
