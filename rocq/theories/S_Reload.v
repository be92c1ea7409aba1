(** The life of a map that is saved and loaded between the calls made on it. *)
From Coq Require Import ZArith List Bool.
From Verif Require Import M_Outcome M_Value M_Qualifier M_Search M_Stat M_StatMap M_HashMap M_Pair M_Registry M_Defaults M_Querier M_Serde M_Bytes M_ValueSerde M_ValueBytes
  S_StatMap S_Pair S_Querier S_Serde S_Bytes S_Totals S_ValueSerde S_ValueBytes S_EndToEnd.
Import ListNotations.
Local Open Scope Z_scope.

Section S.
  Context {P : Prog} {Q : QFlag}.
  Variable bs : list comparison -> bsres.
  Variable N : StatNames P.
  Variable C : Codec P Q.
  Variable B : BCodec P Q.

  (** What happens to a map: a call, or that it is written to a document or to bytes, dropped, and
      read again in a process with the registry [r]. *)
  Inductive event : Type :=
  | Call (o : mop P Q)
  | Document (r : registry P)
  | Bytes (r : registry P).
  (** [lived m l m']: [l] happens to [m], every call returns and every reading succeeds, to the
      last byte; [m'] is what there is afterwards. *)
  Inductive lived : map_t P Q -> list event -> map_t P Q -> Prop :=
  | lived_end m : lived m [] m
  | lived_call m o x l m' : mop_run bs m o = Done x -> lived (x_map x) l m' -> lived m (Call o :: l) m'
  | lived_document m r d m1 l m' : ser_map N C m = ok d -> de_map C (WReg r) d = ok m1 -> lived m1 l m' -> lived m (Document r :: l) m'
  | lived_bytes m r b m1 l m' : put_map N B m = ok b -> take_map B (WReg r) b = ok (m1, []) -> lived m1 l m' -> lived m (Bytes r :: l) m'.
  Definition calls_of (l : list event) : list (mop P Q) := flat_map (fun x => match x with Call o => [o] | _ => [] end) l.

  (** Whenever the map is saved, what the calls so far put into it can be saved, and its names
      lead back in the process that loads it. *)
  Definition savable (l : list event) : Prop :=
    forall l1 x l2 m, l = l1 ++ x :: l2 -> mops_run bs [] (calls_of l1) = Done m ->
    match x with
    | Call _ => True
    | Document r => forall e, In e m -> storable C e /\ name_back N r (e_stat e)
    | Bytes r => (forall e, In e m -> bstorable N B r e) /\ Z.of_nat (List.length m) < 2 ^ 64
    end.

  (** ** Games *)
  (** A map with the log [l] of the calls, saved and loaded in between. *)
  Definition reloaded (m : map_t P Q) (l : list (edit P Q)) : Prop :=
    Forall honest l /\ unrepeated l /\
    exists lf, calls_of lf = map method l /\ savable lf /\ lived [] lf m.
  Definition reloads (k : holder P Q) : Prop :=
    forall d, match k_map k d, k_log k d with
              | Some m, Some l => reloaded m l
              | None, None => True
              | _, _ => False
              end.
  Variables o_size o_align : vty P -> Z.
  (** [set_up] (S_EndToEnd), with [reloaded] maps. *)
  Record kept_up (g : game P Q) : Prop := {
    r_defaults : match g_defaults g, w_defaults (j_world (g_querier g)) with
      | Some l, Some d => Forall dhonest l /\ (forall s, ~ S_Defaults2.orphaned (map dmethod l) s) /\ exists lost, d_run o_size o_align [] (map dmethod l) = Done (d, lost)
      | None, None => True
      | _, _ => False
      end;
    r_global : or_nil (w_relations (j_world (g_querier g))) = map (fun p => everywhere bs (fst p)) (g_global g);
    r_global_logs : Forall (fun p => reloaded (fst p) (snd p)) (g_global g);
    r_comp : S_Querier.leaves (j_comp (g_querier g)) = map (holding bs) (g_comp g);
    r_rel : S_Querier.leaves (j_rel (g_querier g)) = map (holding bs) (g_rel g);
    r_child : S_Querier.leaves (j_child (g_querier g)) = map (holding bs) (g_child g);
    r_logs : Forall reloads (g_comp g ++ g_rel g ++ g_child g)
  }.
End S.
Arguments event P Q : clear implicits.
Arguments Document {P Q} r.
Arguments Bytes {P Q} r.

(** What has to hold of the entries of a map for documents and bytes made by derived
    implementations. *)
Definition document_fits {P : Prog} {Q : QFlag} (N : StatNames P) (serial : sty P -> bool) (LQ : leaf (qcar Q)) (r : registry P) (m : map_t P Q) : Prop :=
  forall e, In e m -> serial (si_ty (e_stat e)) = true /\ name_back N r (e_stat e) /\ back LQ (any_of (e_qual e)) /\ back LQ (all_of (e_qual e)).
Definition bytes_fit {P : Prog} {Q : QFlag} (N : StatNames P) (B : BCodec P Q) (serial : sty P -> bool) (BLQ : bleaf (qcar Q)) (r : registry P) (m : map_t P Q) : Prop :=
  Z.of_nat (List.length m) < 2 ^ 64 /\
  forall e, In e m -> serial (si_ty (e_stat e)) = true /\ bname_back N B r (e_stat e) /\ bback BLQ (any_of (e_qual e)) /\ bback BLQ (all_of (e_qual e)).
