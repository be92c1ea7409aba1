(** What a query is meant to answer: no cache, a flat list of sources, plain recursion. *)
From Coq Require Import ZArith List Bool String Permutation.
From Verif Require S_Types.
From Verif Require Import M_Outcome M_Value M_Qualifier M_Stat M_HashMap M_Pair M_Defaults M_Querier S_Pair.
Import ListNotations.

Section S.
  Context {P : Prog} {Q : QFlag}.
  Notation qq := (qquery Q).
  Notation PR := (prog P Q).
  Notation tyof s := (vt_value P (si_ty s)).

  (** The streams of a querier in the order in which they were attached. *)
  Fixpoint leaves (t : qstream P Q) : list (cstream P Q) :=
    match t with QUnit => [] | QPair a b => leaves a ++ leaves b | QLeaf c => [c] end.
  Definition or_nil {A} (o : option (list A)) : list A := match o with Some l => l | None => [] end.

  (** The contribution of the component on [d] to a query about [e]: none if [d] has no such component. *)
  Definition on (c : cstream P Q) (e d : entity) (x : qq) : list (pair P -> PR (pair P)) :=
    match c_get c d with Some i => [c_stream c e i x] | None => [] end.
  (** Everything that contributes to a stat of [e], in order. *)
  Definition stat_sources (j : joined P Q) (e : entity) (children : option (list entity)) (x : qq) : list (pair P -> PR (pair P)) :=
    map (fun g => g e x) (or_nil (w_relations (j_world j))) ++
    flat_map (fun c => on c e e x) (leaves (j_comp j)) ++
    flat_map (fun c => on c e e x) (leaves (j_rel j)) ++
    flat_map (fun c => flat_map (fun d => on c e d x) (or_nil children)) (leaves (j_child j)).
  (** Everything that contributes to a relation between two entities. *)
  Definition between (c : cstream P Q) (f t : entity) (x : qq) : list (pair P -> PR (pair P)) :=
    match c_get c f, c_get c t with Some i, Some k => [c_rel c i k x] | _, _ => [] end.
  Definition rel_sources (j : joined P Q) (f t : entity) (x : qq) : list (pair P -> PR (pair P)) :=
    map (fun g => g (w_placeholder (j_world j)) x) (or_nil (w_relations (j_world j))) ++
    flat_map (fun c => between c f t x) (leaves (j_rel j)).
  (** Everything that may report an attribute of [e]. *)
  Definition attr_on (c : cstream P Q) (e d : entity) (a : attribute) : list (PR bool) :=
    match c_get c d with Some i => [c_attr c e i a] | None => [] end.
  Definition attr_sources (j : joined P Q) (e : entity) (a : attribute) : list (PR bool) :=
    flat_map (fun c => attr_on c e e a) (leaves (j_comp j)) ++
    flat_map (fun c => attr_on c e e a) (leaves (j_rel j)) ++
    flat_map (fun c => flat_map (fun d => attr_on c e d a)
      (match w_entities (j_world j) e with Some (Some ch) => ch | _ => [] end)) (leaves (j_child j)).

  (** The value a query starts from: the registered default if any, else the default of the type. *)
  Definition initial (w : world P Q) (s : inst P) : outcome (buffer P) :=
    let! _ := validate_ty P (tyof s) in
    let! v := match w_defaults w with Some d => d_get d s | None => Done (sv_default (VT P (tyof s))) end in
    Done (Buf (tyof s) v).

  (** Running user code when questions are answered by [h]. *)
  Fixpoint oeval (h : forall r : request P Q, outcome (raw r)) {A} (p : PR A) : outcome A :=
    match p with
    | Ret a => Done a
    | Stop o => abort o
    | Ask r k => let! _ := check r in let! o := h r in let! v := typed r o in oeval h (k v)
    | Wipe k => oeval h k
    end.
  Definition collect h (p : pair P) (l : list (pair P -> PR (pair P))) : outcome (pair P) :=
    ofold (fun p f => oeval h (f p)) p l.
  (** The first source that reports [true] decides. *)
  Fixpoint any_true h (l : list (PR bool)) : outcome bool :=
    match l with
    | [] => Done false
    | p :: l' => let! b := oeval h p in if b then Done true else any_true h l'
    end.
  Definition answer1 (j : joined P Q) (h : forall r : request P Q, outcome (raw r)) (r : request P Q) : outcome (raw r) :=
    match r return outcome (raw r) with
    | RStat e x s =>
        match w_entities (j_world j) e with
        | None => Done None
        | Some ch =>
            let! b := initial (j_world j) s in
            let! p := collect h (Pair s b) (stat_sources j e ch x) in
            Done (Some (p_buf p))
        end
    | RRel f t x s =>
        match w_entities (j_world j) f, w_entities (j_world j) t with
        | Some _, Some _ =>
            let! b := initial (j_world j) s in
            let! p := collect h (Pair s b) (rel_sources j f t x) in
            Done (Some (p_buf p))
        | _, _ => Done None
        end
    | RAttr e a => any_true h (attr_sources j e a)
    end.
  (** Answers with nested questions up to a depth, and code run against them. *)
  Fixpoint answer (j : joined P Q) (n : nat) (r : request P Q) : outcome (raw r) :=
    match n with O => NoFuel | S n' => answer1 j (answer j n') r end.
  Definition ask (j : joined P Q) (n : nat) {A} (p : PR A) : outcome A := oeval (answer j n) p.

  (** A question terminates if it is answered at some depth (the answer may be a panic). *)
  Definition terminates (j : joined P Q) (r : request P Q) : Prop := exists n, answer j n r <> NoFuel.

  (** Whatever the answers to its questions, the code only returns such results. *)
  Fixpoint returns {A} (R : A -> Prop) (p : PR A) : Prop :=
    match p with
    | Ret a => R a
    | Stop _ => True
    | Ask r k => forall v, returns R (k v)
    | Wipe k => returns R k
    end.
  (** A source that leaves the stat of a well typed pair alone and the pair well typed. *)
  Definition keeps (f : pair P -> PR (pair P)) : Prop :=
    forall p, pair_ok p -> returns (fun p' => p_stat p' = p_stat p /\ pair_ok p') (f p).
  Definition stats_kept (j : joined P Q) : Prop :=
    forall e ch x f, In f (stat_sources j e ch x) -> keeps f.
  Definition relations_kept (j : joined P Q) : Prop :=
    forall e t x f, In f (rel_sources j e t x) -> keeps f.

  (** The code of an answer: what is run, with whom asked, for a request. *)
  Definition body (j : joined P Q) (r : request P Q) : PR (raw r) :=
    match r return PR (raw r) with
    | RStat e x s =>
        match w_entities (j_world j) e with
        | None => Ret None
        | Some ch =>
            pbind (of_outcome (initial (j_world j) s)) (fun b =>
            pbind (pfold (fun p f => f p) (Pair s b) (stat_sources j e ch x)) (fun p => Ret (Some (p_buf p))))
        end
    | RRel f t x s =>
        match w_entities (j_world j) f, w_entities (j_world j) t with
        | Some _, Some _ =>
            pbind (of_outcome (initial (j_world j) s)) (fun b =>
            pbind (pfold (fun p f => f p) (Pair s b) (rel_sources j f t x)) (fun p => Ret (Some (p_buf p))))
        | _, _ => Ret None
        end
    | RAttr e a => first_true (fun p => p) (attr_sources j e a)
    end.
  (** The final answer to a request. *)
  Definition answers (j : joined P Q) (r : request P Q) (o : outcome (raw r)) : Prop :=
    o <> NoFuel /\ exists n, answer j n r = o.
  (** The code asks [r] when its questions are answered by [j]. *)
  Inductive asked (j : joined P Q) {A} : PR A -> request P Q -> Prop :=
  | asked_here : forall r k, check r = Done tt -> asked j (Ask r k) r
  | asked_later : forall r k o v r', check r = Done tt -> answers j r (Done o) -> typed r o = Done v ->
      asked j (k v) r' -> asked j (Ask r k) r'
  | asked_wipe : forall k r', asked j k r' -> asked j (Wipe k) r'.
  (** Answering [r] involves asking [r']. *)
  Definition depends (j : joined P Q) (r' r : request P Q) : Prop := asked j (body j r) r'.
  (** Every question the code may ask, whatever the answers, is one of [R]. *)
  Fixpoint only_asks {A} (R : request P Q -> Prop) (p : PR A) : Prop :=
    match p with
    | Ret _ => True
    | Stop _ => True
    | Ask r k => R r /\ forall v, only_asks R (k v)
    | Wipe k => only_asks R k
    end.
  (** Code whose own results satisfy [R] when it does not return (e.g. it panics but does not
      run forever, or has no undefined behaviour of its own). *)
  Fixpoint stops {A} (R : outcome Empty_set -> Prop) (p : PR A) : Prop :=
    match p with
    | Ret _ => True
    | Stop o => R o
    | Ask r k => forall v, stops R (k v)
    | Wipe k => stops R k
    end.
  (** Code that does not clear the cache. *)
  Fixpoint no_wipe {A} (p : PR A) : Prop :=
    match p with
    | Ret _ => True
    | Stop _ => True
    | Ask r k => forall v, no_wipe (k v)
    | Wipe _ => False
    end.
  (** A property of all user code of a querier. *)
  Record all_code (R : forall A, PR A -> Prop) (j : joined P Q) : Prop := {
    code_stat : forall e ch x f p, In f (stat_sources j e ch x) -> R (pair P) (f p);
    code_rel : forall f t x g p, In g (rel_sources j f t x) -> R (pair P) (g p);
    code_attr : forall e a p, In p (attr_sources j e a) -> R bool p
  }.

  (** The cache after a history of programs run one after the other through a querier. *)
  Fixpoint after (j : joined P Q) (l : list (nat * PR unit)) (c : cache P Q) : cache P Q :=
    match l with
    | [] => c
    | (n, p) :: l' => after j l' (snd (run (client j n p) c))
    end.
  (** The same with a different querier, on a possibly different world, for every program. *)
  Fixpoint after_all (l : list (joined P Q * nat * PR unit)) (c : cache P Q) : cache P Q :=
    match l with
    | [] => c
    | (j, n, p) :: l' => after_all l' (snd (run (client j n p) c))
    end.
  (** Threads run according to a schedule: each number is the thread that takes a step. *)
  Fixpoint step_nth {A} (i : nat) (l : list (act P Q A)) (c : cache P Q) : list (act P Q A) * cache P Q :=
    match l, i with
    | [], _ => ([], c)
    | m :: l', O => match astep m c with Some (m', c') => (m' :: l', c') | None => (m :: l', c) end
    | m :: l', S i' => let (r, c') := step_nth i' l' c in (m :: r, c')
    end.
  Fixpoint schedule {A} (is : list nat) (s : list (act P Q A) * cache P Q) : list (act P Q A) * cache P Q :=
    match is with [] => s | i :: is' => schedule is' (step_nth i (fst s) (snd s)) end.
  (** One thread takes a step. *)
  Definition one_step {A} (s s' : list (act P Q A) * cache P Q) : Prop :=
    exists l1 m l2 m', fst s = l1 ++ m :: l2 /\ fst s' = l1 ++ m' :: l2 /\ astep m (snd s) = Some (m', snd s').
  (** The buffer forgotten in a step. *)
  Definition forgotten {A} (m : act P Q A) (c : cache P Q) : list (buffer P) :=
    match m with APut k b _ => in_olist (snd (hput key_eqb c k b)) | _ => [] end.
  (** A querier whose components are limited to some entities. *)
  Definition limit (keep : entity -> bool) (c : cstream P Q) : cstream P Q :=
    {| c_item := c_item c; c_get := fun d => if keep d then c_get c d else None;
       c_stream := c_stream c; c_attr := c_attr c; c_rel := c_rel c |}.
  Fixpoint limit_tree (keep : entity -> bool) (t : qstream P Q) : qstream P Q :=
    match t with QUnit => QUnit | QPair a b => QPair (limit_tree keep a) (limit_tree keep b) | QLeaf c => QLeaf (limit keep c) end.
  Definition limited (keep : entity -> bool) (j : joined P Q) : joined P Q :=
    {| j_world := j_world j; j_cached := j_cached j; j_comp := limit_tree keep (j_comp j);
       j_child := limit_tree keep (j_child j); j_rel := limit_tree keep (j_rel j) |}.
  (** [o], obtained with depth [n], is what the code returns without a cache. *)
  Definition same_as {A} (u : nat -> outcome A) (n : nat) (o : outcome A) : Prop :=
    (o <> NoFuel -> exists m, u m = o) /\ (u n <> NoFuel -> o = u n).

  (** A source that computes contributions without looking at the value so far and applies them:
      operations (not overwriting) and joined values, all of them satisfying [E]. *)
  Definition contribution (E : forall t, S_Types.step (VT P t) -> Prop) (s : inst P) (f : pair P -> PR (pair P))
      (w : PR (list (S_Types.step (VT P (tyof s))))) : Prop :=
    returns (Forall (fun o => S_Types.unordered o /\ E (tyof s) o)) w /\
    forall h v, oeval h (f (Pair s (Buf (tyof s) v))) =
      let! l := oeval h w in
      let! v' := S_Types.run v l in
      Done (Pair s (Buf (tyof s) v')).
  Definition contributes E (f : pair P -> PR (pair P)) : Prop := forall s, exists w, contribution E s f w.
  (** An attribute source that reports a constant. *)
  Definition constant (p : PR bool) : Prop := exists b, forall h, oeval h p = Done b.
  (** All sources of a querier are such. *)
  Record contributing E (j : joined P Q) : Prop := {
    con_stat : forall e ch x f, In f (stat_sources j e ch x) -> contributes E f;
    con_rel : forall f t x g, In g (rel_sources j f t x) -> contributes E g;
    con_attr : forall e a p, In p (attr_sources j e a) -> constant p
  }.
  (** The same relations, streams and children in another order. *)
  Record rearranged (j j' : joined P Q) : Prop := {
    re_defaults : w_defaults (j_world j') = w_defaults (j_world j);
    re_placeholder : w_placeholder (j_world j') = w_placeholder (j_world j);
    re_relations : Permutation (or_nil (w_relations (j_world j))) (or_nil (w_relations (j_world j')));
    re_comp : Permutation (leaves (j_comp j)) (leaves (j_comp j'));
    re_child : Permutation (leaves (j_child j)) (leaves (j_child j'));
    re_rel : Permutation (leaves (j_rel j)) (leaves (j_rel j'));
    re_entities : forall e, match w_entities (j_world j) e, w_entities (j_world j') e with
      | None, None => True
      | Some a, Some b => Permutation (or_nil a) (or_nil b)
      | _, _ => False
      end
  }.

  (** Equality of flags is equality. *)
  Definition flags_eq : Prop := forall a b : qcar Q, q_eqb Q a b = true <-> a = b.

  (** The registered defaults are values of their stats' types (C23: true after every history
      that inserts before patching). *)
  Definition defaults_typed (w : world P Q) : Prop :=
    match w_defaults w with
    | None => True
    | Some d => forall s b, hget inst_eqb d s = Some b -> exists v, b = DVal (Buf (tyof s) v)
    end.

  (** On well typed pairs, user code has no undefined behaviour of its own. *)
  Record code_sound (j : joined P Q) : Prop := {
    sound_stat : forall e ch x f p, In f (stat_sources j e ch x) -> pair_ok p -> stops (fun o => o <> UB) (f p);
    sound_rel : forall f t x g p, In g (rel_sources j f t x) -> pair_ok p -> stops (fun o => o <> UB) (g p);
    sound_attr : forall e a p, In p (attr_sources j e a) -> stops (fun o => o <> UB) p
  }.

  (** The same querier when there is no cache resource. *)
  Definition uncached (j : joined P Q) : joined P Q :=
    {| j_world := j_world j; j_cached := false; j_comp := j_comp j; j_child := j_child j; j_rel := j_rel j |}.
End S.
