(** What a query over entities carrying [StatMap]s is meant to answer, read off the logs of the
    calls that made the maps and the defaults. *)
From Coq Require Import ZArith List Bool Sorted.
From Verif Require Import M_Outcome M_Value M_Qualifier M_Search M_Stat M_StatMap M_HashMap M_Pair M_Defaults M_Querier
  S_StatMap S_Defaults S_Defaults2 S_Querier S_Totals.
Import ListNotations.

Section S.
  Context {P : Prog} {Q : QFlag}.
  Notation VS s := (VT P (vt_value P (si_ty s))).
  (** How a value of a stat came about (S_Totals). *)
  Notation story s := (history (VS s)).

  Definition stat_dec (a b : inst P) : {a = b} + {a <> b}.
  Proof. decide equality; [apply Z.eq_dec|apply sty_dec]. Defined.

  (** ** Maps *)
  (** One call on a [StatMap] and what the caller knows about it: a value handed to [insert] was
      made as told by [h], and likewise those handed to [extend]; the holder of [get_mut]'s reference,
      the closure of [modify_with] and the holders of [iter_mut]'s references applied the operations [l]. *)
  Definition bulk_item (U : sty P) : Type := qualifier Q * Z * (history (VT P (vt_value P U)) * val (VT P (vt_value P U))).
  Inductive edit : Type :=
  | EInsert (q : qualifier Q) (s : inst P) (h : story s) (v : val (VS s))
  | EBase (q : qualifier Q) (s : inst P) (b : baseT (VS s))
  | EModify (q : qualifier Q) (s : inst P) (o : stat_op (VS s))
  | EGetMut (q : qualifier Q) (s : inst P) (l : list (stat_op (VS s)))
  | ERemove (q : qualifier Q) (s : inst P)
  | EModifyWith (q : qualifier Q) (s : inst P) (l : list (stat_op (VS s)))
  | EIterMut (s : inst P) (f : qualifier Q -> list (stat_op (VS s)))
  | ERemoveAll (s : inst P)
  | EClear
  | EExtend (U : sty P) (k : list (bulk_item U)).
  Definition method (e : edit) : mop P Q :=
    match e with
    | EInsert q s _ v => MInsert q s v
    | EBase q s b => MInsertBase q s b
    | EModify q s o => MModify q s o
    | EGetMut q s l => MGetMut q s (fun v => ofold (fun v o => write_to o v) v l)
    | ERemove q s => MRemove q s
    | EModifyWith q s l => MModifyWith q s (fun v => ofold (fun v o => write_to o v) v l)
    | EIterMut s f => MIterMut s (fun q v => ofold (fun v o => write_to o v) v (f q))
    | ERemoveAll s => MRemoveAll s
    | EClear => MClear
    | EExtend U k => MExtend U (map (fun p : bulk_item U => (fst p, snd (snd p))) k)
    end.
  Definition honest (e : edit) : Prop :=
    match e with
    | EInsert _ s h v => value_of h = Done v
    | EExtend U k => Forall (fun p : bulk_item U => value_of (fst (snd p)) = Done (snd (snd p))) k
    | _ => True
    end.

  (** The stories of the entries of a map. *)
  Definition ledger : Type := forall s : inst P, qualifier Q -> option (story s).
  Definition set_entry (L : ledger) (s : inst P) (q : qualifier Q) (o : option (story s)) : ledger :=
    fun s' q' =>
      match stat_dec s s' with
      | left E => match qual_cmp q q' with Eq => eq_rect s (fun s => option (story s)) o s' E | _ => L s' q' end
      | right _ => L s' q'
      end.
  Definition so_far {s : inst P} (o : option (story s)) : story s := match o with Some h => h | None => FromDefault end.
  Definition placed {U : sty P} (L : ledger) (p : bulk_item U) : ledger :=
    set_entry L (Inst U (snd (fst p))) (fst (fst p)) (@Some (story (Inst U (snd (fst p)))) (fst (snd p))).
  Definition edited (L : ledger) (e : edit) : ledger :=
    match e with
    | EInsert q s h _ => set_entry L s q (Some h)
    | EBase q s b => set_entry L s q (Some (FromBase b))
    | EModify q s o => set_entry L s q (Some (Applied (so_far (L s q)) o))
    | EGetMut q s l => set_entry L s q (option_map (fun h => fold_left Applied l h) (L s q))
    | ERemove q s => set_entry L s q None
    | EModifyWith q s l => set_entry L s q (Some (fold_left Applied l (so_far (L s q))))
    | EIterMut s f => fun s' q =>
        match stat_dec s s' with
        | left E => option_map (fold_left Applied (eq_rect s (fun s => list (stat_op (VS s))) (f q) s' E)) (L s' q)
        | right _ => L s' q
        end
    | ERemoveAll s => fun s' q => if stat_dec s s' then None else L s' q
    | EClear => fun _ _ => None
    | EExtend U k => fold_left placed k L
    end.
  Definition account (l : list edit) : ledger := fold_left edited l (fun _ _ => None).
  (** [extend] was only given new keys, each once. *)
  Definition unrepeated (l : list edit) : Prop :=
    forall l1 U k l2, l = l1 ++ EExtend U k :: l2 ->
    NoDup (map fst k) /\ forall q i p, In (q, i, p) k -> account l1 (Inst U i) q = None.

  (** The entries of [s] in a map with the log [l] that a query selects, in ascending order of
      qualifiers. *)
  Definition chosen (s : inst P) (x : qquery Q) (l : list edit) (hs : list (qualifier Q * story s)) : Prop :=
    StronglySorted (fun a b => qual_cmp (fst a) (fst b) = Lt) hs /\
    forall q h, In (q, h) hs <-> account l s q = Some h /\ qualifies_as q x = true.

  (** ** Defaults *)
  (** [register_stat_default] of a value made as told by [h]; [register_stat_min] and
      [register_stat_max] ([o] is then [OMin] or [OMax]). *)
  Inductive dedit : Type :=
  | EDefault (s : inst P) (h : story s) (v : val (VS s))
  | EPatch (s : inst P) (o : stat_op (VS s)).
  Definition dmethod (e : dedit) : dcall P :=
    match e with EDefault s _ v => DInsert s v | EPatch s o => DPatch s o end.
  Definition dhonest (e : dedit) : Prop :=
    match e with EDefault s h v => value_of h = Done v | EPatch _ _ => True end.
  Definition dledger : Type := forall s : inst P, option (story s).
  Definition set_default (L : dledger) (s : inst P) (h : story s) : dledger :=
    fun s' => match stat_dec s s' with left E => Some (eq_rect s (fun s => story s) h s' E) | right _ => L s' end.
  Definition dedited (L : dledger) (e : dedit) : dledger :=
    match e with
    | EDefault s h _ => set_default L s h
    | EPatch s o => set_default L s (Applied (so_far (L s)) o)
    end.
  (** The story of the starting value of a stat. *)
  Definition start (l : list dedit) (s : inst P) : story s := so_far (fold_left dedited l (fun _ => None) s).

  (** ** The world *)
  Variable bs : list comparison -> bsres.
  (** A component type that holds a [StatMap] and streams it: which entities have it, and the
      logs of their maps. What it says about attributes and relations does not matter. *)
  Record holder : Type := {
    k_map : entity -> option (map_t P Q);
    k_log : entity -> option (list edit);
    k_attr : entity -> map_t P Q -> attribute -> prog P Q bool;
    k_rel : map_t P Q -> map_t P Q -> qquery Q -> pair P -> prog P Q (pair P)
  }.
  Definition holding (k : holder) : cstream P Q :=
    {| c_item := map_t P Q; c_get := k_map k;
       c_stream := fun _ m x p => of_outcome (map_stream bs m x p);
       c_attr := k_attr k; c_rel := k_rel k |}.
  (** A map is what the calls of its log made of an empty map. *)
  Definition logged (m : map_t P Q) (l : list edit) : Prop :=
    Forall honest l /\ unrepeated l /\ mops_run bs [] (map method l) = Done m.
  Definition faithful (k : holder) : Prop :=
    forall d, match k_map k d, k_log k d with
              | Some m, Some l => logged m l
              | None, None => True
              | _, _ => False
              end.
  (** A registered [StatMap] (src/stat_map.rs:363-378) as a global relation. *)
  Definition everywhere (m : map_t P Q) : gstream P Q := fun _ x p => of_outcome (map_stream bs m x p).

  (** Everything a game sets up: the calls made to register defaults, global maps with their logs,
      the components of entities, of relations, and of children, and a querier over them. *)
  Record game : Type := {
    g_defaults : option (list dedit);
    g_global : list (map_t P Q * list edit);
    g_comp : list holder;
    g_rel : list holder;
    g_child : list holder;
    g_querier : joined P Q
  }.
  Variables o_size o_align : vty P -> Z.
  Record set_up (g : game) : Prop := {
    u_defaults : match g_defaults g, w_defaults (j_world (g_querier g)) with
      | Some l, Some d => Forall dhonest l /\ (forall s, ~ orphaned (map dmethod l) s) /\ exists lost, d_run o_size o_align [] (map dmethod l) = Done (d, lost)
      | None, None => True
      | _, _ => False
      end;
    u_global : or_nil (w_relations (j_world (g_querier g))) = map (fun p => everywhere (fst p)) (g_global g);
    u_global_logs : Forall (fun p => logged (fst p) (snd p)) (g_global g);
    u_comp : leaves (j_comp (g_querier g)) = map holding (g_comp g);
    u_rel : leaves (j_rel (g_querier g)) = map holding (g_rel g);
    u_child : leaves (j_child (g_querier g)) = map holding (g_child g);
    u_logs : Forall faithful (g_comp g ++ g_rel g ++ g_child g)
  }.

  (** The logs of the maps that contribute to a query about [e] with children [ch]. *)
  Definition log_on (d : entity) (k : holder) : list (list edit) := match k_log k d with Some l => [l] | None => [] end.
  Definition logs_for (g : game) (e : entity) (ch : list entity) : list (list edit) :=
    map snd (g_global g) ++ flat_map (log_on e) (g_comp g) ++ flat_map (log_on e) (g_rel g) ++
    flat_map (fun k => flat_map (fun d => log_on d k) ch) (g_child g).
  (** The stories of all contributions, starting value first. *)
  Definition stories (g : game) (s : inst P) (sel : list (list (qualifier Q * story s))) : list (story s) :=
    start (match g_defaults g with Some l => l | None => [] end) s :: map snd (concat sel).
  Definition together {S : StatValue} (l : list (history S)) : history S :=
    match l with [] => FromDefault | h :: l' => fold_left Joined l' h end.
End S.
Arguments edit P Q : clear implicits.
Arguments dedit P : clear implicits.
Arguments holder P Q : clear implicits.
Arguments game P Q : clear implicits.
Arguments ledger P Q : clear implicits.

(** A story, and a result, of a type that is known to be [T]. *)
Definition seen_as {S T : StatValue} (E : S = T) (h : history S) : history T := eq_rect S history h T E.
Definition result_as {S T : StatValue} (E : S = T) (r : outT S) : outT T := eq_rect S outT r T E.
(** Everything contributed of one kind by several stories. *)
Definition all_gains {S : StatValue} {A} (l : list (history S)) (add : addT S -> A) (base : baseT S -> A) : list A := flat_map (fun h => gains h add base) l.
Definition all_factors {S : StatValue} {A} (l : list (history S)) (mul : mulT S -> A) : list A := flat_map (fun h => factors h mul) l.
Definition all_floors {S : StatValue} {A} (l : list (history S)) (bnd : boundsT S -> A) : list A := flat_map (fun h => floors h bnd) l.
Definition all_ceilings {S : StatValue} {A} (l : list (history S)) (bnd : boundsT S -> A) : list A := flat_map (fun h => ceilings h bnd) l.
