(** tests/serde.rs replayed on the model, with the derived implementations of the values: as
    documents (M_ValueSerde.v) and as bytes (M_ValueBytes.v). These examples test the model. *)
From Coq Require Import String Ascii ZArith List Bool SpecFloat.
From Flocq Require Import Core BinarySingleNaN.
From Verif Require Import M_Outcome M_Ints M_Ratio M_Float M_Value M_Types M_Qualifier M_Search M_Stat M_StatMap M_HashMap M_Registry M_Serde M_Bytes M_ValueSerde M_ValueBytes S_Demo S_Serde S_Totals.
Import ListNotations.
Local Open Scope Z_scope.

(** 54-64 *)
Inductive st := SInt | SUInt | SFloat32 | SFlags | SString | SIntPct | SIntFrac | SMul | SFracMul.
Definition vt (t : st) : StatValue :=
  match t with
  | SInt => statInt true (prim I32) | SUInt => statInt true (prim U32) | SFloat32 => statFloat f32F | SFlags => statFlags zflags
  | SString => statOnce string | SIntPct => statPct true (prim I32) Round 100 | SIntFrac => statIntFraction true (prim I8) Round
  | SMul => statMult f32F | SFracMul => statMult (fracF true I32)
  end.
Definition test : Prog := {|
  vty := st; vty_dec := ltac:(decide equality); VT := vt;
  v_size := fun t => match t with SFlags => 8 | SString => 24 | SIntPct => 20 | SIntFrac => 5 | SMul => 12 | SFracMul => 24 | _ => 16 end;
  v_align := fun t => match t with SString => 8 | SIntFrac => 1 | _ => 4 end;
  sty := st; sty_dec := ltac:(decide equality); vt_value := fun s => s;
  vt_addr := fun s => match s with SInt => 8000 | SUInt => 8080 | SFloat32 => 8160 | SFlags => 8240 | SString => 8320 | SIntPct => 8400 | SIntFrac => 8480 | SMul => 8560 | SFracMul => 8640 end
|}.
Definition name (s : st) : string :=
  match s with SInt => "SInt" | SUInt => "SUInt" | SFloat32 => "SFloat32" | SFlags => "SFlags" | SString => "SString" | SIntPct => "SIntPct" | SIntFrac => "SIntFrac" | SMul => "SMul" | SFracMul => "SFracMul" end.
Definition testN : StatNames test := @Build_StatNames test (fun s => [(name s, 0)]) (fun s _ => Done (name s)).
Definition test_reg : registry test := all_names testN [SInt; SUInt; SFloat32; SFlags; SString; SIntPct; SIntFrac; SMul; SFracMul].
Definition s (t : st) : inst test := @Inst test t 0.
(** 111 *)
Definition q_false : qualifier boolQ := qual_all_of boolQ false.
Definition op : Type := mop test boolQ.
Definition f (m : positive) (e : Z) : f32 := binary_normalize 24 128 prec24 emax128 mode_NE (Zpos m) e false.
(** 112-124 *)
Definition base_map : list op := [
  @MInsertBase test boolQ q_false (s SInt) (-4);
  @MInsertBase test boolQ q_false (s SUInt) 7;
  @MInsertBase test boolQ q_false (s SFloat32) (f 7 (-1));
  @MInsertBase test boolQ q_false (s SFlags) 32;
  @MInsertBase test boolQ q_false (s SString) "Ferris the Rustacean"%string;
  @MInsertBase test boolQ q_false (s SIntFrac) 69;
  @MInsertBase test boolQ q_false (s SIntPct) 420;
  @MInsertBase test boolQ q_false (s SMul) (f 3 (-1));
  @MInsertBase test boolQ q_false (s SFracMul) (Frac 44 57)].
(** 135-148. [Not] of a string is not an operation of [StatOnce] but compiles, as its bits are
    strings. *)
Definition op_map : list op := [
  @MModify test boolQ q_false (s SInt) (@OAdd (vt SInt) (-4));
  @MModify test boolQ q_false (s SUInt) (@OMax (vt SUInt) 7);
  @MModify test boolQ q_false (s SFloat32) (@OMin (vt SFloat32) (f 7 (-1)));
  @MModify test boolQ q_false (s SFlags) (@OOr (vt SFlags) 32);
  @MModify test boolQ q_false (s SString) (@ONot (vt SString) "Ferris the Rustacean"%string);
  @MModify test boolQ q_false (s SIntFrac) (@OMul (vt SIntFrac) (Frac (-43) 47));
  @MModify test boolQ q_false (s SIntPct) (@OMul (vt SIntPct) 32);
  @MModify test boolQ q_false (s SMul) (@OMul (vt SMul) (f 817 (-3)));
  @MModify test boolQ q_false (s SFracMul) (@OMul (vt SFracMul) (Frac 0 1))].
(** 155-167, 179-191 *)
Definition full_map : list op := map (fun t => @MInsert test boolQ q_false (s t) (sv_default (vt t)))
  [SInt; SUInt; SString; SIntFrac; SIntPct; SFracMul; SFloat32; SFlags; SMul].

(** As bytes *)
Definition test_bleaf (t : st) : bleaf (val (vt t)) :=
  match t return bleaf (val (vt t)) with
  | SInt => bleaf_quad (bleaf_int I32) (bleaf_int I32)
  | SUInt => bleaf_quad (bleaf_int U32) (bleaf_int U32)
  | SFloat32 => bleaf_quad bleaf_f32 bleaf_f32
  | SFlags => bleaf_flags (G:=zflags) (bleaf_int U32)
  | SString => bleaf_once (bleaf_str (fun _ => true))
  | SIntPct => bleaf_percent (bleaf_int I32) (bleaf_ratio (bleaf_int I32))
  | SIntFrac => bleaf_quad (bleaf_int I8) (bleaf_ratio (bleaf_int I8))
  | SMul => bleaf_mult (F:=f32F) bleaf_f32
  | SFracMul => bleaf_mult (F:=fracF true I32) (bleaf_ratio (bleaf_int I32))
  end.
Definition testB : BCodec test boolQ := bleaf_codec test boolQ (fun _ => true) (fun _ => true) test_bleaf bleaf_bool.
Definition run_test (l : list op) : map_t test boolQ := match mops_run bs_new [] l with Done m => m | _ => [] end.
Definition save_bytes (m : map_t test boolQ) : option bytes := match put_map testN testB m with Done o => o | _ => None end.
Definition load_bytes (bs : bytes) : option (map_t test boolQ * bytes) := match take_map testB (WReg test_reg) bs with Done o => o | _ => None end.
Definition again (l : list op) : option (option bytes * bytes) :=
  match save_bytes (run_test l) with
  | Some bs => match load_bytes bs with Some p => Some (save_bytes (fst p), snd p) | None => None end
  | None => None
  end.
Definition len (l : list op) : nat := List.length (run_test l).

(** 193-211 *)
Example postcard_full :
  len full_map = 9%nat /\ exists bs, save_bytes (run_test full_map) = Some bs /\ again full_map = Some (Some bs, []) /\
  firstn 40 bs = [9; 3; 0; 0; 4; 83; 73; 110; 116; 0; 255; 255; 255; 255; 15; 254; 255; 255; 255; 15; 2;
                  3; 0; 0; 5; 83; 85; 73; 110; 116; 0; 0; 255; 255; 255; 255; 15; 1; 3; 0].
Proof. split; [vm_compute; reflexivity|]. eexists. split; [vm_compute; reflexivity|]. split; vm_compute; reflexivity. Qed.
(** The other two maps of the test, as bytes. *)
Example postcard_base : exists bs, save_bytes (run_test base_map) = Some bs /\ again base_map = Some (Some bs, []).
Proof. eexists. split; vm_compute; reflexivity. Qed.
Example postcard_op : len op_map = 9%nat /\ exists bs, save_bytes (run_test op_map) = Some bs /\ again op_map = Some (Some bs, []).
Proof. split; [vm_compute; reflexivity|]. eexists. split; vm_compute; reflexivity. Qed.

(** As documents (serde_json), with bits of floats in place of their digits. *)
Definition test_leaf (LF : leaf f32) (t : st) : leaf (val (vt t)) :=
  match t return leaf (val (vt t)) with
  | SInt => leaf_quad true true (leaf_int I32) (leaf_int I32)
  | SUInt => leaf_quad true true (leaf_int U32) (leaf_int U32)
  | SFloat32 => leaf_quad true true LF LF
  | SFlags => leaf_flags (G:=zflags) true true (leaf_int U32)
  | SString => leaf_once true leaf_str
  | SIntPct => leaf_percent true true (leaf_int I32) (leaf_ratio true (leaf_int I32))
  | SIntFrac => leaf_rounded true true (leaf_int I8) (leaf_ratio true (leaf_int I8))
  | SMul => leaf_mult (F:=f32F) true true LF
  | SFracMul => leaf_mult (F:=fracF true I32) true true (leaf_ratio true (leaf_int I32))
  end.
Definition float_doc : leaf f32 := {| wr := fun x => DInt (f32_bits x); rd := fun d => match d with DInt n => Some (f32_of_bits n) | _ => None end |}.
Definition testC : Codec test boolQ := leaf_codec test boolQ true true (fun _ => true) (test_leaf float_doc) leaf_bool.
Definition save_doc (m : map_t test boolQ) : option doc := match ser_map testN testC m with Done o => o | _ => None end.
Definition load_doc (d : doc) : option (map_t test boolQ) := match de_map testC (WReg test_reg) d with Done o => o | _ => None end.
Definition again_doc (l : list op) : option (option doc) :=
  match save_doc (run_test l) with Some d => match load_doc d with Some m => Some (save_doc m) | None => None end | None => None end.
(** 125-133, 149-153, 168-176 *)
Example json_maps :
  (exists d, save_doc (run_test base_map) = Some d /\ again_doc base_map = Some (Some d)) /\
  (exists d, save_doc (run_test op_map) = Some d /\ again_doc op_map = Some (Some d)) /\
  (exists d, save_doc (run_test full_map) = Some d /\ again_doc full_map = Some (Some d)).
Proof. repeat split; eexists; (split; [vm_compute; reflexivity|vm_compute; reflexivity]). Qed.
