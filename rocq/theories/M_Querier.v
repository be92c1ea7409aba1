(** Queries over a world: streams, queriers and the cache
    (src/querier.rs, src/stream.rs, src/cache.rs, src/plugin.rs:193-236). *)
From Coq Require Import ZArith List Bool String.
From Verif Require Import M_Outcome M_Value M_Qualifier M_Stat M_HashMap M_Pair M_Defaults.
Import ListNotations.

(** [Entity]. Only equality of entities matters. *)
Definition entity : Type := nat.
Definition attribute : Type := string.

Section Querier.
  Variable P : Prog.
  Variable Q : QFlag.
  Notation VS s := (val (VT P (vt_value P (si_ty s)))).
  Notation qq := (qquery Q).

  (** What can be asked of a [Querier] (src/querier.rs:96-158), and the erased and typed answers. *)
  Inductive request : Type :=
  | RStat (e : entity) (x : qq) (s : inst P)             (** [query_stat] *)
  | RRel (from to : entity) (x : qq) (s : inst P)        (** [query_relation] *)
  | RAttr (e : entity) (a : attribute).                  (** [has_attribute] *)
  Definition raw (r : request) : Type :=
    match r with RStat _ _ _ | RRel _ _ _ _ => option (buffer P) | RAttr _ _ => bool end.
  Definition resp (r : request) : Type :=
    match r with RStat _ _ s | RRel _ _ _ s => option (VS s) | RAttr _ _ => bool end.

  (** User code that is given a [Querier]: a deterministic terminating program which may ask
      questions, branch on the answers, clear the cache (the cache is a resource that a stream's
      context may hold) and panic. [Stop] is a result of the code's own that is not a value. *)
  Inductive prog (A : Type) : Type :=
  | Ret (a : A)
  | Stop (o : outcome Empty_set)
  | Ask (r : request) (k : resp r -> prog A)
  | Wipe (k : prog A).
  Arguments Ret {A}.
  Arguments Stop {A}.
  Arguments Ask {A}.
  Arguments Wipe {A}.
  Fixpoint pbind {A B} (p : prog A) (f : A -> prog B) : prog B :=
    match p with
    | Ret a => f a
    | Stop o => Stop o
    | Ask r k => Ask r (fun x => pbind (k x) f)
    | Wipe k => Wipe (pbind k f)
    end.
  (** A [for] loop over a list that mutates an accumulator. *)
  Fixpoint pfold {A B} (f : A -> B -> prog A) (a : A) (l : list B) : prog A :=
    match l with
    | [] => Ret a
    | b :: l' => pbind (f a b) (fun a' => pfold f a' l')
    end.
  Definition of_outcome {A} (o : outcome A) : prog A :=
    match o with Done a => Ret a | Panics p => Stop (Panics p) | UB => Stop UB | NoFuel => Stop NoFuel end.

  (** ** Streams (src/stream.rs) *)
  (** [CxComponentStream] (171-181) of a [ComponentStream]/[RelationStream] implementor:
      [c_get] is [Query::get] on the components of the world, and the context [cx], constant
      while the querier is alive, is part of the functions. *)
  Record cstream : Type := {
    c_item : Type;
    c_get : entity -> option c_item;
    c_stream : entity -> c_item -> qq -> pair P -> prog (pair P);
    c_attr : entity -> c_item -> attribute -> prog bool;
    c_rel : c_item -> c_item -> qq -> pair P -> prog (pair P)
  }.
  (** The stream types [()], [(A, B)] and [CxComponentStream]. *)
  Inductive qstream : Type :=
  | QUnit
  | QPair (a b : qstream)
  | QLeaf (c : cstream).

  (** [Query::iter_many] over a list of entities: the items of those that match. *)
  Definition iter_many (c : cstream) (es : list entity) : list (c_item c) :=
    flat_map (fun e => match c_get c e with Some i => [i] | None => [] end) es.

  (** [QueryStream::stream] (59-68, 75-88, 183-197) *)
  Fixpoint q_stream (t : qstream) (e : entity) (es : list entity) (x : qq) (p : pair P) : prog (pair P) :=
    match t with
    | QUnit => Ret p
    | QPair a b => pbind (q_stream a e es x p) (q_stream b e es x)
    | QLeaf c => pfold (fun p i => c_stream c e i x p) p (iter_many c es)
    end.
  (** [QueryStream::has_attribute] (70-72, 90-99, 199-212) *)
  Fixpoint first_true {A} (f : A -> prog bool) (l : list A) : prog bool :=
    match l with
    | [] => Ret false
    | a :: l' => pbind (f a) (fun b => if b then Ret true else first_true f l')
    end.
  Fixpoint q_attr (t : qstream) (e : entity) (es : list entity) (a : attribute) : prog bool :=
    match t with
    | QUnit => Ret false
    | QPair l r => pbind (q_attr l e es a) (fun b => if b then Ret true else q_attr r e es a)
    | QLeaf c => first_true (fun i => c_attr c e i a) (iter_many c es)
    end.
  (** [QueryRelationStream::relation] (102-112, 114-128, 215-234) *)
  Fixpoint q_rel (t : qstream) (this other : entity) (x : qq) (p : pair P) : prog (pair P) :=
    match t with
    | QUnit => Ret p
    | QPair a b => pbind (q_rel a this other x p) (q_rel b this other x)
    | QLeaf c =>
        match c_get c this with
        | None => Ret p
        | Some i => match c_get c other with None => Ret p | Some j => c_rel c i j x p end
        end
    end.

  (** [GlobalStatRelations] (src/plugin.rs:193-236): boxed [StatStream]s run in order. *)
  Definition gstream : Type := entity -> qq -> pair P -> prog (pair P).
  Definition relations_stream (l : list gstream) (e : entity) (x : qq) (p : pair P) : prog (pair P) :=
    pfold (fun p g => g e x p) p l.

  (** [StatQuery] (src/querier.rs:31-36) without the cache: the resources, and for each entity
      marked [StatEntity] its [Children] component if it has one. [placeholder] is
      [Entity::PLACEHOLDER]. *)
  Record world : Type := {
    w_defaults : option (defaults P);
    w_relations : option (list gstream);
    w_entities : entity -> option (option (list entity));
    w_placeholder : entity
  }.
  (** [JoinedQuerier] (39-52) over [StatQuery]. [j_cached]: there is a [StatCache] resource. *)
  Record joined : Type := {
    j_world : world;
    j_cached : bool;
    j_comp : qstream;
    j_child : qstream;
    j_rel : qstream
  }.
  (** [StatQuery::with_*] (351-394) and the [_cx] variants (396-449). *)
  Definition sq_with_component (w : world) (cached : bool) (c : cstream) : joined :=
    {| j_world := w; j_cached := cached; j_comp := QLeaf c; j_child := QUnit; j_rel := QUnit |}.
  Definition sq_with_children (w : world) (cached : bool) (c : cstream) : joined :=
    {| j_world := w; j_cached := cached; j_comp := QUnit; j_child := QLeaf c; j_rel := QUnit |}.
  Definition sq_with_relation (w : world) (cached : bool) (c : cstream) : joined :=
    {| j_world := w; j_cached := cached; j_comp := QUnit; j_child := QUnit; j_rel := QLeaf c |}.
  (** [JoinedQuerier::with_*] (467-518) and the [_cx] variants (520-574). *)
  Definition with_component (j : joined) (c : cstream) : joined :=
    {| j_world := j_world j; j_cached := j_cached j; j_comp := QPair (j_comp j) (QLeaf c); j_child := j_child j; j_rel := j_rel j |}.
  Definition with_children (j : joined) (c : cstream) : joined :=
    {| j_world := j_world j; j_cached := j_cached j; j_comp := j_comp j; j_child := QPair (j_child j) (QLeaf c); j_rel := j_rel j |}.
  Definition with_relation (j : joined) (c : cstream) : joined :=
    {| j_world := j_world j; j_cached := j_cached j; j_comp := j_comp j; j_child := j_child j; j_rel := QPair (j_rel j) (QLeaf c) |}.

  (** ** The cache (src/cache.rs) *)
  (** [CachedEntry] (11-16) with its derived equality. *)
  Definition key : Type := entity * qq * inst P.
  Definition qquery_eqb (a b : qq) : bool :=
    match a, b with
    | Aggregate s, Aggregate s' => q_eqb Q s s'
    | Exact n l, Exact n' l' => q_eqb Q n n' && q_eqb Q l l'
    | _, _ => false
    end.
  Definition key_eqb (a b : key) : bool :=
    let '(e, x, s) := a in let '(e', x', s') := b in
    Nat.eqb e e' && qquery_eqb x x' && inst_eqb s s'.
  Definition cache : Type := hmap key (buffer P).

  (** What a query does, as a tree of the operations on the shared cache, each of which holds
      the lock for its whole duration: [try_get_cached_dyn] (67-82), the insertion of
      [cache_pair] (56-65) and [clear] (84-90). *)
  Inductive act (A : Type) : Type :=
  | ARet (a : A)
  | AFail (o : outcome Empty_set)
  | AGet (k : key) (f : option (buffer P) -> act A)
  | APut (k : key) (b : buffer P) (f : act A)
  | AClear (f : act A).
  Arguments ARet {A}.
  Arguments AFail {A}.
  Arguments AGet {A}.
  Arguments APut {A}.
  Arguments AClear {A}.
  Fixpoint abind {A B} (m : act A) (f : A -> act B) : act B :=
    match m with
    | ARet a => f a
    | AFail o => AFail o
    | AGet k g => AGet k (fun o => abind (g o) f)
    | APut k b g => APut k b (abind g f)
    | AClear g => AClear (abind g f)
    end.
  Definition a_outcome {A} (o : outcome A) : act A :=
    match o with Done a => ARet a | Panics p => AFail (Panics p) | UB => AFail UB | NoFuel => AFail NoFuel end.

  (** The typed methods (103-113, 116-127): validate the value type, ask, and read the buffer
      of the answer at the value type of the stat. *)
  Definition check (r : request) : outcome unit :=
    match r with RStat _ _ s | RRel _ _ _ s => validate_ty P (vt_value P (si_ty s)) | RAttr _ _ => Done tt end.
  Definition typed (r : request) : raw r -> outcome (resp r) :=
    match r return raw r -> outcome (resp r) with
    | RStat _ _ s | RRel _ _ _ s => fun o =>
        match o with None => Done None | Some b => let! v := buf_into P (vt_value P (si_ty s)) b in Done (Some v) end
    | RAttr _ _ => fun b => Done b
    end.
  (** Running a program against a querier. *)
  Fixpoint interp (cached : bool) (h : forall r, act (raw r)) {A} (p : prog A) : act A :=
    match p with
    | Ret a => ARet a
    | Stop o => AFail o
    | Ask r k =>
        abind (a_outcome (check r)) (fun _ =>
        abind (h r) (fun o =>
        abind (a_outcome (typed r o)) (fun v => interp cached h (k v))))
    | Wipe k => if cached then AClear (interp cached h k) else interp cached h k
    end.

  (** Starting value (262-267, 301-306), with what is lost because the arguments of [unwrap_or]
      are evaluated eagerly. *)
  Definition start_value (w : world) (s : inst P) : outcome (buffer P * list (buffer P)) :=
    let! found := match w_defaults w with Some d => let! r := d_get_dyn d s in Done (Some r) | None => Done None end in
    let! dflt := vt_default P (si_ty s) in
    match found with
    | Some (b, lost) => Done (b, lost ++ [dflt])
    | None => Done (dflt, [])
    end.

  (** The streams of [query_stat_erased] (269-285), of [query_relation_erased] (308-313) and
      [has_attribute_erased] (317-341). *)
  Definition stat_body (j : joined) (e : entity) (children : option (list entity)) (x : qq) (p : pair P) : prog (pair P) :=
    pbind (match w_relations (j_world j) with Some l => relations_stream l e x p | None => Ret p end) (fun p =>
    pbind (q_stream (j_comp j) e [e] x p) (fun p =>
    pbind (q_stream (j_rel j) e [e] x p) (fun p =>
    match children with Some ch => q_stream (j_child j) e ch x p | None => Ret p end))).
  Definition rel_body (j : joined) (from to : entity) (x : qq) (p : pair P) : prog (pair P) :=
    pbind (match w_relations (j_world j) with Some l => relations_stream l (w_placeholder (j_world j)) x p | None => Ret p end) (fun p =>
    q_rel (j_rel j) from to x p).
  Definition attr_body (j : joined) (e : entity) (a : attribute) : prog bool :=
    pbind (q_attr (j_comp j) e [e] a) (fun b => if b then Ret true else
    pbind (q_attr (j_rel j) e [e] a) (fun b => if b then Ret true else
    match w_entities (j_world j) e with
    | Some (Some ch) => pbind (q_attr (j_child j) e ch a) (fun b => if b then Ret true else Ret false)
    | _ => Ret false
    end)).

  Section Body.
    Variable j : joined.
    (** The querier handed to streams. *)
    Variable h : forall r, act (raw r).
    (** [query_stat_erased] (245-289) *)
    Definition query_stat_erased (e : entity) (x : qq) (s : inst P) : act (option (buffer P)) :=
      match w_entities (j_world j) e with
      | None => ARet None
      | Some children =>
          let compute :=
            abind (a_outcome (start_value (j_world j) s)) (fun b =>
            abind (interp (j_cached j) h (stat_body j e children x (Pair s (fst b)))) (fun p =>
            if j_cached j
            then abind (a_outcome (pair_clone_buffer p)) (fun c =>
                 APut (e, x, p_stat p) c (ARet (Some (p_buf p))))
            else ARet (Some (p_buf p)))) in
          if j_cached j
          then AGet (e, x, s) (fun o =>
               match o with
               | Some b => abind (a_outcome (vt_clone P (si_ty s) b)) (fun c => ARet (Some c))
               | None => compute
               end)
          else compute
      end.
    (** [query_relation_erased] (291-315) *)
    Definition query_relation_erased (from to : entity) (x : qq) (s : inst P) : act (option (buffer P)) :=
      match w_entities (j_world j) from with
      | None => ARet None
      | Some _ =>
          match w_entities (j_world j) to with
          | None => ARet None
          | Some _ =>
              abind (a_outcome (start_value (j_world j) s)) (fun b =>
              abind (interp (j_cached j) h (rel_body j from to x (Pair s (fst b)))) (fun p =>
              ARet (Some (p_buf p))))
          end
      end.
    (** [has_attribute_erased] (317-341) *)
    Definition has_attribute_erased (e : entity) (a : attribute) : act bool := interp (j_cached j) h (attr_body j e a).
    Definition erased (r : request) : act (raw r) :=
      match r with
      | RStat e x s => query_stat_erased e x s
      | RRel f t x s => query_relation_erased f t x s
      | RAttr e a => has_attribute_erased e a
      end.
  End Body.

  (** [NoopQuerier] (219-240) *)
  Definition noop (r : request) : act (raw r) :=
    match r with RStat _ _ _ | RRel _ _ _ _ => ARet None | RAttr _ _ => ARet false end.

  (** A joined querier passes itself to streams: recursion, to depth at most the fuel. *)
  Fixpoint level (j : joined) (n : nat) (r : request) : act (raw r) :=
    match n with
    | O => AFail NoFuel
    | S n' => erased j (level j n') r
    end.
  (** Code using the querier: a stream, or the caller of [JoinedQuerier]'s methods (160-217). *)
  Definition client (j : joined) (n : nat) {A} (p : prog A) : act A := interp (j_cached j) (level j n) p.

  (** [query_eval], [query_relation_eval] (130-151): as programs. *)
  Definition p_query (e : entity) (x : qq) (s : inst P) : prog (option (VS s)) := Ask (RStat e x s) Ret.
  Definition p_relation (f t : entity) (x : qq) (s : inst P) : prog (option (VS s)) := Ask (RRel f t x s) Ret.
  Definition p_eval_of (s : inst P) (o : option (VS s)) : prog (option (outT (VT P (vt_value P (si_ty s))))) :=
    match o with
    | None => Ret None
    | Some v => pbind (of_outcome (sv_eval (VT P (vt_value P (si_ty s))) v)) (fun r => Ret (Some r))
    end.
  Definition p_query_eval (e : entity) (x : qq) (s : inst P) : prog (option (outT (VT P (vt_value P (si_ty s))))) :=
    pbind (of_outcome (validate_ty P (vt_value P (si_ty s)))) (fun _ => pbind (p_query e x s) (p_eval_of s)).
  Definition p_relation_eval (f t : entity) (x : qq) (s : inst P) : prog (option (outT (VT P (vt_value P (si_ty s))))) :=
    pbind (of_outcome (validate_ty P (vt_value P (si_ty s)))) (fun _ => pbind (p_relation f t x s) (p_eval_of s)).

  (** ** Running *)
  (** One thread alone. A panic leaves the cache as it is. *)
  Definition abort {A} (o : outcome Empty_set) : outcome A := obind o (fun e => match e with end).
  Fixpoint run {A} (m : act A) (c : cache) : outcome A * cache :=
    match m with
    | ARet a => (Done a, c)
    | AFail o => (abort o, c)
    | AGet k f => run (f (hget key_eqb c k)) c
    | APut k b f => run f (fst (hput key_eqb c k b))
    | AClear f => run f []
    end.

  (** Threads sharing the cache: any thread may take the next step. *)
  Definition astep {A} (m : act A) (c : cache) : option (act A * cache) :=
    match m with
    | ARet _ | AFail _ => None
    | AGet k f => Some (f (hget key_eqb c k), c)
    | APut k b f => Some (f, fst (hput key_eqb c k b))
    | AClear f => Some (f, [])
    end.
  Inductive steps {A} : list (act A) * cache -> list (act A) * cache -> Prop :=
  | steps_refl : forall s, steps s s
  | steps_one : forall l1 m l2 c m' c' s,
      astep m c = Some (m', c') -> steps (l1 ++ m' :: l2, c') s -> steps (l1 ++ m :: l2, c) s.
  Definition finished {A} (m : act A) (o : outcome A) : Prop :=
    match m with ARet a => o = Done a | AFail f => o = abort f | _ => False end.

  (** ** What becomes of the buffers given to the cache *)
  Definition in_olist {A} (o : option A) : list A := match o with Some a => [a] | None => [] end.
  (** Inserted by [cache_pair]. *)
  Fixpoint placed {A} (m : act A) (c : cache) : list (buffer P) :=
    match m with
    | ARet _ | AFail _ => []
    | AGet k f => placed (f (hget key_eqb c k)) c
    | APut k b f => b :: placed f (fst (hput key_eqb c k b))
    | AClear f => placed f []
    end.
  (** Returned by [HashMap::insert] in [cache_pair] (57) and forgotten: a [Buffer] has no drop glue. *)
  Fixpoint displaced {A} (m : act A) (c : cache) : list (buffer P) :=
    match m with
    | ARet _ | AFail _ => []
    | AGet k f => displaced (f (hget key_eqb c k)) c
    | APut k b f => in_olist (snd (hput key_eqb c k b)) ++ displaced f (fst (hput key_eqb c k b))
    | AClear f => displaced f []
    end.
  (** Dropped by [clear]. *)
  Fixpoint cleared {A} (m : act A) (c : cache) : list (buffer P) :=
    match m with
    | ARet _ | AFail _ => []
    | AGet k f => cleared (f (hget key_eqb c k)) c
    | APut k b f => cleared f (fst (hput key_eqb c k b))
    | AClear f => map snd c ++ cleared f []
    end.
  (** The loop of [clear] (86-88) and [Drop] (95-97): every buffer is dropped through the vtable of its key. *)
  Fixpoint cache_drop (c : cache) : outcome unit :=
    match c with
    | [] => Done tt
    | ((_, _, s), b) :: c' => let! _ := vt_drop P (si_ty s) b in cache_drop c'
    end.
End Querier.
Arguments RStat {P Q}.
Arguments RRel {P Q}.
Arguments RAttr {P Q}.
Arguments raw {P Q}.
Arguments resp {P Q}.
Arguments Ret {P Q A}.
Arguments Stop {P Q A}.
Arguments Ask {P Q A}.
Arguments Wipe {P Q A}.
Arguments pbind {P Q A B}.
Arguments pfold {P Q A B}.
Arguments of_outcome {P Q A}.
Arguments c_item {P Q}.
Arguments c_get {P Q}.
Arguments c_stream {P Q}.
Arguments c_attr {P Q}.
Arguments c_rel {P Q}.
Arguments QUnit {P Q}.
Arguments QPair {P Q}.
Arguments QLeaf {P Q}.
Arguments iter_many {P Q}.
Arguments q_stream {P Q}.
Arguments first_true {P Q A}.
Arguments q_attr {P Q}.
Arguments q_rel {P Q}.
Arguments relations_stream {P Q}.
Arguments w_defaults {P Q}.
Arguments w_relations {P Q}.
Arguments w_entities {P Q}.
Arguments w_placeholder {P Q}.
Arguments j_world {P Q}.
Arguments j_cached {P Q}.
Arguments j_comp {P Q}.
Arguments j_child {P Q}.
Arguments j_rel {P Q}.
Arguments sq_with_component {P Q}.
Arguments sq_with_children {P Q}.
Arguments sq_with_relation {P Q}.
Arguments with_component {P Q}.
Arguments with_children {P Q}.
Arguments with_relation {P Q}.
Arguments qquery_eqb {Q}.
Arguments key_eqb {P Q}.
Arguments ARet {P Q A}.
Arguments AFail {P Q A}.
Arguments AGet {P Q A}.
Arguments APut {P Q A}.
Arguments AClear {P Q A}.
Arguments abind {P Q A B}.
Arguments a_outcome {P Q A}.
Arguments check {P Q}.
Arguments typed {P Q}.
Arguments interp {P Q} cached h {A}.
Arguments start_value {P Q}.
Arguments stat_body {P Q}.
Arguments rel_body {P Q}.
Arguments attr_body {P Q}.
Arguments query_stat_erased {P Q}.
Arguments query_relation_erased {P Q}.
Arguments has_attribute_erased {P Q}.
Arguments erased {P Q}.
Arguments noop {P Q}.
Arguments level {P Q}.
Arguments client {P Q} j n {A}.
Arguments p_query {P Q}.
Arguments p_relation {P Q}.
Arguments p_query_eval {P Q}.
Arguments p_relation_eval {P Q}.
Arguments run {P Q A}.
Arguments astep {P Q A}.
Arguments steps {P Q A}.
Arguments finished {P Q A}.
Arguments in_olist {A}.
Arguments placed {P Q A}.
Arguments displaced {P Q A}.
Arguments cleared {P Q A}.
Arguments cache_drop {P Q}.
