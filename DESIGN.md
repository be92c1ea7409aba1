# Formal model of bevy_stat_query in Rocq (Coq 8.16.1)

## Layout of rocq/theories

| prefix | content |
|--------|---------|
| `M_*`  | the model: executable Gallina functions, each citing the Rust lines it models |
| `S_*`  | small stand-alone specifications used in theorem statements (no model helpers) |
| `L_*`  | lemmas and proofs |
| `P_*`  | the property theorems only: statement, `exact`, `Print Assumptions`, and a non-vacuity `Example` |

## Conventions of the model

* A function taking `&mut x` returns the new `x`.
* Panics and undefined behaviour are data: `outcome A := Done a | Panics why | UB | NoFuel`
  (`NoFuel` only arises in the query interpreter, whose recursion depth is fuel).
* Machine integers are `Z` in the range of an explicit integer type (`ity`: u8..i128, usize/isize = 64 bit).
  Overflow is explicit: `oc = true` is a build with overflow checks (panic), `oc = false` wraps;
  `Wrapping<T>` and `Saturating<T>` have their own arithmetic.
* `f32`/`f64` are Flocq `binary_float 24 128` / `binary_float 53 1024` with one NaN.
* `num_rational::Ratio` and `num_integer::gcd/lcm` are dependencies. They are modelled from their
  published 0.4/0.1 algorithms, function by function, with overflow. `gcd` is the mathematical gcd
  and `Ratio::cmp` the order by cross multiplication; Stein's algorithm and the comparison by continued
  fractions are in `M_RatioAlgo` and proved equal to them (C19_gcd_algorithm, C19_order_algorithm).
  Their sources are not in /repo and were transcribed from the published crates.
* `slice::binary_search_by` is a parameter constrained by the contract documented in std
  (`bs_contract`); both historical std algorithms are modelled and proved to satisfy it.
* `Vec::sort_by` is stable insertion sort (std documents a stable sort; the result of a stable sort is unique).
* `FxHashMap` is an association list with unique keys (iteration order is never observed by a modelled function).
* Bevy: a world is what the querier can observe of it, i.e. which entities carry `StatEntity`,
  the `Children` list of each, and per attached `Query` the item of each entity.
  Stream implementations are user code: arbitrary finite programs that may issue nested queries (`prog`).
* Type erasure: a `Buffer` holds a value tagged with the type it was written with; every `unsafe` cast
  checks the tag and yields `UB` on mismatch. A `StatVTable` address determines the stat type
  (the invariant argued in src/stat.rs lines 109-116).

## Trusted base

* Coq's kernel (rechecked with coqchk), and the reading of the Rust source that the model's comments cite.
* Axioms: none of our own. Theorems about f32/f64 use Flocq and hence the standard library's real number
  axioms; `Print Assumptions` below each theorem shows which. All other theorems are closed.
  (The per theorem list is at the end of this file.)
* Documented behaviour of std, num-rational, num-integer, serde, bevy as listed above.

## Assumptions made in the model, and where they matter

* *Lawful user types.* `QFlag` is the interface of `QualifierFlag`; theorems that need its operations to
  behave state it as a hypothesis: `lawful` (operations are those of sets), `lawful_flags` (for `StatFlags`), `flags_eq`
  (`==` decides Leibniz equality), `lawful_ord` (a total order that decides Leibniz equality).
  `C01_blanket_lawful` and `C01_int_lawful` prove `lawful` for the blanket and the integer implementations.
  `C04_int_flags` and `C04_bool_flags` prove `lawful_ord` and `flags_eq` for integers and `bool` as flags.
* *`distinct_vtables`.* The vtable of a stat type has an address of its own (src/stat.rs 109-116 argues this
  for `static`s). Theorems that depend on it say so; the source does not check it. `M_VTable` (C67) takes it apart: which tables safe
  Rust lets `vtable()` return (a small type language with subtyping; bodies of `vtable()` as what they return; invariance is
  equality of types, as in rustc since 1.78), and what remains without it.
* *Value types.* A user's `StatValue` is a record of arbitrary functions returning an `outcome`. `Clone` and `Drop` of
  values return, except in `M_Poison` (C57), where they may panic under the cache's lock; equality of values is Leibniz equality.
* *Buffers are strict about types.* Reading a buffer at a type other than the one written is `UB`, also where
  the two types happen to have the same layout. In particular the `StatOperation` bytes that `patch` leaves in the table of
  defaults (C23) are not a value of the stat.
* *Unlawful orders.* `M_AnyOrd` (C66) lets the order of the flags answer anything, depend on how often it was asked, and panic.
  The search and the sort are then any functions keeping `search_contract` and `sort_contract` (`S_AnyOrd`): the search returns an
  index it was told is `Equal`, or an insertion point between answers it was given; the sort permutes its slice and, if it returns
  (newer std panics when it notices contradictions), neighbours are ordered by a chain of answers it was given. Both searches of
  std, insertion sort and merge sort are proved to keep this; std documents less (an unspecified order), so for its present
  sort the second part is an assumption of C66.
* *Unlawful hashes.* `M_AnyEq` (C68) lets the flags' `Hash`, `Eq`, `Clone` and `Drop` do anything in each operation on the cache. Of
  std's hash table it is assumed that a slot is only taken after the comparison of its key returned true, that an insertion makes
  room before it searches, that making room keeps or discards whole entries if `hash` panics, and that `clear` empties the table
  also if dropping a key panics. A second panic while unwinding aborts the process and is not followed further.
* *Binary search* is any function satisfying std's contract on sorted slices; what it returns on unsorted
  slices is arbitrary, and theorems that hold for every such function are stated over all of them.
* *Streams* are deterministic terminating programs over questions. Their context (`Cx`) does not change while
  a querier is alive. Non-termination is only mutual recursion of queries: `NoFuel` at every depth.
* *Threads.* A lock acquisition with what is done under it is one step; threads interleave arbitrarily.
* *Serde.* A document is a tree of sequences, maps, strings and numbers; a value codec is a pair of functions
  (with a round trip hypothesis where a theorem needs it; `M_ValueSerde` models the derived codecs of this crate's own types and C62 proves
  the round trip for them, given the codecs of floats and of user types); errors carry no message. `Saturating` numbers saturate when
  read, `Ratio` is read without being reduced, as serde 1 and num-rational 0.4 do. An
  entry that decodes but has trailing elements is refused and its decoded buffer leaks (`de_leaked`).
* *Derive.* `M_Derive` starts from the list of variants with their explicit discriminants and `#[default]` marks, and includes
  the macro's numbering, rustc's numbering and the generated functions. `M_Macro` (C69) starts from the item as `syn` hands it over: attributes
  cut at commas into a path and the tokens after it, fields present or not, discriminants a literal or another expression. `parse_nested_meta`
  reads path, closure, comma until the end or the first error; `base10_parse` ignores the suffix of a literal; both are syn's documented behaviour.
* *Floats.* One NaN; `min`/`max` of two zeros of different sign return the first operand (Rust leaves it
  open; C74 proves that any other choice changes no result but the sign of a zero); `as` casts saturate and send NaN to 0.
* *Ratio.* See above.
* *Tests.* `S_RepoTests` and `S_RepoSerde` replay the assertions of /repo/tests on the model, as a check of the model.
* *Locks.* In `M_Querier`, `M_Poison` and everything built on them an operation on the cache, lock included, is one step; `M_Lock` (C61)
  proves that this loses nothing for a lock that gives guards as std documents it.
* *Bytes.* `M_Bytes` (C70) follows postcard 1.0 for lengths, `i32`, `u32`, `bool`, strings, sequences and structs. Impls of values and flags are
  parameters with the hypothesis that they are read back whatever follows and refuse proper beginnings of what they wrote. `M_ValueBytes` (C72)
  gives the derived impls of the crate's own types: varints (zigzag for signed integers, one byte for 8 bits), little endian floats with one NaN
  (payloads are not modelled), a `u32` variant number for enums, fields in declaration order.
* *World.* In `M_World` (C52-C54) a call on a world that panics ends the modelled history. In `M_WorldUnwind` (C73) the panic is caught
  and the history goes on; what user code left in a value it was changing is arbitrary.
* *Unwinding.* `M_Unwind` says what each `StatMap` method leaves behind when it panics; that `Vec::clear`, `Drain` and `Vec::extend`
  leave the vector as described there is std's behaviour. `M_Poison` models poisoning of `RwLock` as std documents it (only a
  panic while holding the lock for writing poisons). Panics of a user's `Ord` are modelled in `M_AnyOrd` only (C66), those of
  `Hash`, `Eq`, `Clone` and `Drop` of flags in `M_AnyEq` only (C68).

* *References.* `M_Borrow` has one exclusive reference at a time per place and no reborrowing; using any other is undefined
  behaviour. The borrow checker is the acceptance judgement given there (loans end at the next access to the pair; branches and loops
  by forgetting), an abstraction of rustc's.

## Not modelled

Lifetimes and borrow rules except for references into pairs (`M_Borrow`), the layout of
`Debug` output (its items are modelled), reflection, hashing quality, fairness of `RwLock` (which waiting thread is served
first; a writer may be overtaken for ever by new readers), the concrete bytes of text formats (a document is a tree; the bytes of postcard are in `M_Bytes`), bevy's scheduler, archetypes and change
detection, tokenization of the derive macro's input (`syn`), performance.

## Findings in the source

Each row is witnessed by the theorems named in it.

| where | what | theorems |
|-------|------|----------|
| src/plugin.rs 157-163 (`patch`) | on an absent key the *operation* is stored as if it were the value; every later access, printing included, is undefined behaviour | C23_defaults_map_refuted, C60_defaults_refuted; exactly when: C23_ub_iff, C23_any_history, C24_defaults_drop_iff |
| src/plugin.rs 149 (`insert`), 181 (`get_dyn`) | a displaced default, and the eagerly built fallback, leak | C24_defaults_refuted |
| src/stat_map.rs 170 (`insert`) | the displaced value leaks | C24_map_no_leak_refuted |
| src/stat.rs 17-21 (`StatVTable`) | `PhantomData<T>` makes it covariant: safe code can give `W<fn(&'static u8)>` the table of `W<for<'a> fn(&'a u8)>`, two stats with values of different types; reading one as the other is undefined behaviour | C67_declared_refuted |
| src/stat_map.rs 101-132 (`from_iter`, `extend`) | repeated keys coexist: `remove` leaves a copy, queries count both, and documents differ though `get` agrees | C07_remove_then_get_refuted, C07_repeated_key_query_refuted, C51_repeats_refuted |
| src/stat_map.rs 64 (derived `Deserialize`) | entries are not sorted again: in a process with other vtable addresses, or on a document in a bad order, lookups fail and a query reads a value at the wrong type | C38_other_process_refuted, C39_bad_order_accepted_refuted, C22_unsorted_vector_refuted |
| src/stat_map.rs 119-132 (`extend`) | an iterator that panics leaves the pushed entries unsorted; if the panic is caught, a query reads a value at the wrong type | C56_extend_panic_refuted |
| src/stat_map.rs 119-132 (`extend`) | so does an `Ord` of the flags that panics inside the sort | C66_caught_sort_panic_refuted |
| src/stat_map.rs 427-446 (`visit_seq`) | surplus elements of an entry are not consumed: in postcard they are read as the next entry | C70_counts_refuted |
| src/types/*.rs (derived `Deserialize`) | the byte format does not say which stat type wrote it and the field order differs (`StatInt`: addend, min, max, mult; `StatIntPercentAdditive`: addend, mult, min, max): a stat whose type was changed reads old bytes without an error and with its fields exchanged | C72_typeless_refuted |
| src/num_traits.rs 286-291 (`Fraction`) | is not reduced when read from bytes either: bytes of an equal fraction load as a stat that overflows | C72_fraction_refuted |
| src/cache.rs 56-82, src/querier.rs 254-289 | the lock is not held while a stat is computed: threads asking the same question at once each compute it (the answers agree) | C71_threads_refuted |
| src/querier.rs 254-289 | the answer is filed under the stat the pair has after the streams ran: if a stream replaced it, the question asked is computed every time | C71_swapped_refuted |
| src/plugin.rs 258-266 (`register`) | panics at the first name taken by another stat and keeps the names before it | C73_atomic_refuted |
| deserializing without `StatDeserializers` | an unregistered name panics instead of giving an error | C39_always_error_refuted |
| src/cache.rs 57 (`cache_pair`) | a racing or pair-replacing query overwrites an entry without dropping it | C24_cache_refuted |
| src/cache.rs 57-64 (`cache_pair`) | clones while the lock is held for writing: one panicking `Clone` poisons the cache, and every later cached query and `clear` panics | C57_clone_panic_refuted, C57_poison_is_permanent, C57_poisoned_queries_panic |
| src/cache.rs 10-24 | (no bug) flags whose `Eq` is too generous get the answer to another query, never another entity's or stat's | C68_answers_refuted, C68_hit_origin |
| src/cache.rs 57-64, 67-90 | `Clone` and `Drop` of values run with the lock held: one that queries through the same cache (or clears it) deadlocks | C61_reentry_refuted |
| `Fraction` from a document (src/num_traits.rs 286-291) | is not reduced: a `StatIntFraction` loaded with 100/100 overflows (or is wrong) where 1/1 is right | C62_fraction_refuted |
| `Fraction` `/` and `%` (src/num_traits.rs 355-356) | panic on representable results next to the least integer (`64 / (-1/2)` in `i8`; `MIN % -1`); unchecked builds return wrong quotients (`(1/127) / 127 = 1` in `i8`) | C63_div_edge_refuted, C63_rem_min_refuted, C63_release_exact_refuted |
| src/cache.rs, the key `CachedEntry` | does not mention the querier: queriers with other streams get each other's answers | C30_per_querier_refuted |
| streams get `&mut StatValuePair` | a safe stream may replace the pair by one of another stat: undefined behaviour, and cached answers differ from uncached ones | C43_typed_result_refuted, C43_queries_refuted, C27_transparent_refuted |
| src/stat.rs 318, 332 (`cast<'t>`, `is_then_cast<'t>`) | the lifetime of the returned `&'t mut` is unconstrained: safe code can hold two `&mut` to one value or use one after the pair is gone; binding it to `&mut self` would make every accepted program safe | C64_references_refuted, C64_programs, C64_bound_sound |
| src/querier.rs, `has_attribute` | is not limited to entities with `StatEntity` | C36_gated_refuted |
| defaults registered after a cached query | are not seen until the cache is cleared | C54_reflects_registration_refuted |
| src/types/int_pct.rs 101-122 | `StatIntPercent`: the default (addend 1, multiplier 1) is not neutral, and `join` adds multipliers | C13_StatIntPercent_default_neutral_refuted, C13_StatIntPercent_separate_multipliers_refuted, C13_StatIntPercent_query_refuted, C58_StatIntPercent_default, C58_StatIntPercent, C65_StatIntPercent |
| src/types/prioritized.rs 21-31 | `join` never updates the priority | C09_Prioritized_refuted, C14_Prioritized_documented_refuted |
| `bool` as a stat value | every operation except `Base` is ignored, `Or` included | C17_bool_or_refuted |
| signed `Saturating`, checked primitives, unchecked fractions, f32 | the result depends on the order of contributions | C09_signed_saturating_refuted, C09_checked_panic_refuted, C09_release_fraction_refuted, C09_f32_refuted |
| `from_base(x).eval() == x` | fails at the edges: percentages that overflow, Floor at MIN, special floats, integers beyond the float's precision | C11_StatIntPercentAdditive_refuted, C11_StatIntFraction_floor_min_refuted, C11_float_base_refuted, C45_base_refuted |
| `SCALE` that does not fit the integer type | is clamped, so the scale is another one | C18_narrow_scale_refuted |
| percentages whose product fits but whose sum of multipliers or rounding overflows | panic in checked builds, and Floor is wrong without checks | C18_product_fits_refuted |
| `from_i64` | panics for every argument on u64, u128, usize and i128 | C21_from_i64_total_refuted |
| fraction arithmetic | overflows although the result is representable (checked), or is silently wrong (unchecked) | C19_add_panics_only_if_unrepresentable_refuted, C19_release_exact_refuted, C20_fraction_ceil_checked_total_refuted, C20_fraction_floor_release_refuted, C49_release_refuted |
| `Exact` queries on a flag type with several representations of a set | compare with `==`, not `set_equals` | C02_set_equals_not_used_refuted |
| src/buffer.rs, `Buffer::from` | writes through a byte array of alignment 1 | C25_from_in_bounds_and_aligned_refuted |
| provided value types with 64 bit parameters | do not fit the buffer | C26_every_parameter_refuted |
| `match_stat` with an arm whose type does not fit | panics before a later matching arm runs | C42_runs_first_matching_arm_refuted |
| `register` of a type that gives two of its values one name | panics on an empty registry | C37_register_panics_only_on_earlier_refuted |
| derive/src/lib.rs 49 (`let _ = attr.parse_nested_meta`) | parse errors are thrown away: in `#[stat(unit = "m", value = "i32")]` the value is never reached and reported missing | C69_value_given_refuted |
| derive/src/lib.rs, numbering | `enum { A, B = 1 }` gives both variants index 1 | C40_indices_distinct_refuted |

Also proved: `clear_stat_cache` panics in a world without the cache resource (src/plugin.rs 72-74, C53_clear_panics).

## Plan per property

| id | modelled by | proof |
|----|-------------|-------|
| C01-C03 | `M_Qualifier`: trait operations and `qualifies_as` over any flag type; spec by flag membership | unfold, extensionality of membership |
| C04-C06 | `M_Search`, `M_StatMap`: sorted vector, binary search, partition_point | invariant "strictly sorted" by induction over histories; refinement to a function key -> option value |
| C07 | `from_iter`, `extend`: append and stable sort | sorted multiset; refutation of map semantics on repeated keys with a witness |
| C08, C12 | `M_Value` (`StatValue` record, `write_to`) and `M_Types` | commutative monoid laws lifted to permutations; floats: which values the constants 0, 1, MIN, MAX leave alone (`S_Neutral`) |
| C09 | same | refutations by computation for Saturating, overflow checked, f32, Prioritized; positive theorems where it holds |
| C10, C18, C21 | `M_Ints`, `M_Types` | interval arithmetic over Z, case analysis over the twelve types |
| C11, C13, C14, C17 | `M_Types` | closed form or refutation with witness |
| C15, C16 | `M_Types` | counting abstraction / bitwise characterisation, induction over contribution sequences |
| C19, C20 | `M_Ratio`, `M_Rounding` | exactness against rationals by cross multiplication; Z.quot/Z.div characterisations; Flocq for floats |
| C22 | `M_StatMap` over tagged buffers | invariant "tag of buffer = type of vtable" |
| C23 | `M_Defaults` | refinement to a function; refutation for patch on an absent key (stores the operation, not the value); for any history, induction over the calls per stat (`S_Defaults2`) |
| C24, C48 | displaced/dropped/returned values are outputs of each model function | conservation of a multiset over histories; leak refutation |
| C25, C26 | `M_Layout`: repr(C) layout | arithmetic; exact set of accepted parameters |
| C27-C32, C34-C36, C44, C47 | `M_Querier`: streams as programs, interpreter into atomic cache actions | simulation by induction on fuel and program; invariant "cache entries are uncached answers" over all schedules |
| C33 | same, streams that only join | permutation invariance of folds |
| C37 | `M_Registry` | induction over histories |
| C38, C39 | `M_Serde` | round trip by induction; refutation across address layouts |
| C40 | `M_Derive`: macro numbering and rustc numbering | characterisation (iff) and refutation |
| C41 | `M_Stat` | lexicographic order laws |
| C42, C43, C55 | `M_Stat` pairs and arms, `M_Pair` casts | induction over arms; refutation by a stream that replaces the pair |
| C45, C46 | `M_Float`, `M_Types` | Flocq correctness theorems |
| C49 | `M_Types` | exactness against rationals |
| C50, C51 | `M_Serde` | induction over entries; uniqueness of sorted vectors |
| C52-C54 | `M_World`: resources and histories of extension calls | invariant per resource; reduction to C27 and C29 |
| C56 | `M_Unwind`: the map at the point of a panic | the sorted and typed invariant survives; every such vector is reachable without panics; refutation for `extend` |
| C57 | `M_Poison`: cache steps with a poison flag | simulation by the steps of `M_Querier`; conservation of buffers; refutation by a panicking clone |
| C58 | `M_Types`, over `history`: trees of operations and joins | induction over histories; exact sums and products when checked, modulo 2^bits when wrapping |
| C59 | `M_Types`, `M_Float`, over `history` | induction over histories with the standard model of rounding ((1 + u)^(n-1) - 1); sums on a grid and products of short fractions are representable, hence exact; over `Fraction` the fields are the reduced form of the exact rational total (`S_FracTotals`) |
| C60 | `M_Debug`: what each `Debug` implementation reads | the typing invariants of maps, defaults and caches; undefined exactly for tables with a stat that was only patched |
| C61 | `M_Lock`: guards of the cache's lock taken and dropped in steps of their own | counting invariant (readers, writer, at the map); simulation by and of the steps of `M_Querier`; well-founded induction; refutation by a clone or drop that asks the cache |
| C62 | `M_ValueSerde`: derived codecs of the provided types | what is accepted, as equivalences with a description of documents; ranges preserved over histories, hence round trips; map histories preserve any invariant of values; refutation by an unreduced fraction |
| C63 | `M_RatioOps`: `Div`, `Rem` and integer operands of `Fraction` | exact or panics, as rationals of the standard library; a representable result is found away from the least integer; remainder characterised and unique; refutations at the least integer and in unchecked builds |
| C64 | `M_Borrow`: programs with pairs and references, their executions, what the borrow checker accepts | preservation by induction over the acceptance judgement and executions; four accepted programs with undefined behaviour |
| C65 | composition: `S_EndToEnd` reads call logs into stories of values and collects the contributing maps | logs and abstract maps agree by induction over calls; rows of maps by induction over sources; cache by C27; totals by C58 and C59, and for flags, bools, StatOnce and Prioritized by `S_Bits` |
| C66 | `M_AnyOrd`: orders as stateful, partial functions; search and sort by contract | stats stay grouped whatever the order of flags says, since stats are compared first by address; invariants over calls |
| C67 | `M_VTable`: subtyping, variance, the tables a type gives; calls carry their type and their table | induction over who asks whom; the C66 invariant with stats compared by address only; witnesses by computation |
| C68 | `M_AnyEq`: each operation on the cache with its own behaviour of the flags' functions, over `M_Poison` | rely-guarantee with facts about entries that do not mention the query; sound programs keep pairs typed; conservation of buffers |
| C69 | `M_Macro`: the whole macro from the parsed item, errors of `parse_nested_meta` thrown away | induction over arguments and attributes against a separate relational description; complaints by first fault |
| C70 | `M_Bytes`: varints, strings, qualifiers, entries and maps as bytes; `M_Utf8`: std's check of UTF-8 | readers compose (`spells`: reads back with any rest, refuses proper beginnings); acceptance by induction against a relational description of the format; the check of UTF-8 against the encoding of scalar values |
| C71 | `M_Querier` (no new model); `S_Once`: the questions a run computes, alone and in any interleaving | invariant: the questions computed so far are distinct, were not in the cache at the start and are filed under the asked stat when their computation ends; induction on fuel and programs, with arbitrary growth of the cache by other threads between steps |
| C72 | `M_ValueBytes`: readers and writers of every derived impl of the crate's types | readers compose as in C70; digits of varints by induction on the length; floats through Flocq's bits; values of any history by the field invariants of C58/C62; `S_RepoSerde` replays tests/serde.rs |
| C73 | `M_WorldUnwind`: what each call on a world leaves behind when it panics | invariants over histories with caught panics; defaults against a relational description of interrupted patches; the cache by C27 and C43 from the last emptying |
| C74 | no new model; `S_Zeros`: the float stats over any `min` and `max` keeping std's contract, another in each call | simulation: equal up to the sign of zeros is kept by every operation; induction over histories |
| C75 | no new model; `S_Monotone`: when an operand is better, a gain or a loss, and when a tree of operations and joins is an improved other; `S_MonoQuery`: the same of maps and games; `S_MonoQuery2`: two queries and their answers | order of values by induction over improvements; rounding keeps the order; floats through their order on the reals with infinities at the ends, NaN propagates; fractions through the rationals (`S_MonoFrac`); maps by merging the sorted entries |
| C76 | `M_Compare`: derived comparisons of operations, fractions and values; `S_Compare`: std's contract and interchangeable values | contract by cases on the kinds, floats through their order on the reals; induction over steps with values related field by field (identical, or zeros of either sign); refutations by NaN and by a fraction not in lowest terms |
| C77 | `S_Reload`: lives of a map, calls interleaved with documents and bytes | induction over the life with the invariant that the map is what the calls so far make; C38 and C70 for each loading; C65 for games |
| C78 | no new model; `S_Temporary`: logs in which a grant and its removal were put in, any number of times | the two maps agree at every other key at each step, by the laws of the calls; sortedness makes equal lookups equal maps; C65 for games |
| C79 | no new model; `S_Moved`: two games with the same entries up to a permutation | C65 gives the joined stories of both; joining is a run of C08/C09, which need no order |
| C80 | no new model; `S_Rules`: rules as user code over `pair_is_then_cast`, and what leads to a value as an inductive relation | both directions by induction over the sources; C27 for the cache, `asked_terminate` and the rank for termination |
| C81 | no new model; `S_RulesMono`: improved games with rules; `S_RulesMonoAt`: rules that ask for a stat of another entity, or for nothing (`follows_if`) | induction on the rank of the stat over C80, `pays` from C75 |
| C82 | no new model; `S_Reorder`: permuted causes, rules that set no base; `S_ReorderAt`: ranks of questions instead of stats | causes as lists of steps, `order_free` of C08 over their concatenation, induction on the rank for what the rules come up with |
| C83 | no new model; `S_Unaffected`: closed sets of questions, causes that are alike for them | answers at every depth are equal, by induction on the depth; C27 for the cache |
| C84 | no new model (the depth of `answer`) | C80_settles with the depth counted |
| C85 | no new model; `S_Ties`: ties between the maps of two entities, as the relation code of components | the sources of a relation query are those of laws (C80); C44, C27 |
| C86 | no new model; `S_Held`: registrations that leave bounds in place; `S_Held2`: the types of stats with integer bounds | bounds only get narrower along `leads` |
| C87 | no new model; `S_Equations`: books of answers and what they foretell | one step of answering depends on answers of lower rank only; C84, C27 |

## Print Assumptions per theorem

Generated by tools/gen_assumptions.py.

<!-- assumptions -->
* `P_Alike.v`, closed under the global context: C67_alike_crates, C67_cache_safe, C67_cache_origin, C67_defaults_safe
* `P_AnyEq.v`, closed under the global context: C68_queries_safe, C68_entries_origin, C68_hit_origin, C68_drop_typed, C68_dropped_once, C68_lawful_same, C68_answers_refuted
* `P_AnyEq2.v`, closed under the global context: C68_poison
* `P_AnyOrd.v`, closed under the global context: C66_searches, C66_sorts, C66_any_order_safe, C66_any_order_observers, C66_queries_exact, C66_lawful_order_same, C66_caught_sort_panic_refuted, C66_map_semantics_refuted
* `P_AnyOrd2.v`, closed under the global context: C66_lawful_get_same, C66_get_evaled, C67_observers_same, C67_pairs_return
* `P_Bits.v`, closed under the global context: C65_StatFlags, C65_StatExists, C65_bool, C65_StatOnce, C65_Prioritized, C75_query_StatFlags
* `P_Borrow.v`, closed under the global context: C64_bound_sound, C64_references_refuted, C64_programs, C64_bound_accepts_less, C64_match_stat
* `P_Bytes.v`, closed under the global context: C70_primitives, C70_lengths, C70_round_trip, C70_history, C70_injective, C70_accepted_iff, C70_returns, C70_typed, C70_one_spelling_refuted, C70_counts_refuted
* `P_Bytes4.v`, closed under the global context: C50_bytes, C70_defined, C70_put_defined
* `P_Cache.v`, closed under the global context: C27_transparent, C27_entries_right, C27_no_resource, C27_transparent_refuted, C28_threads, C28_progress, C28_finite, C29_clear_restores, C29_stale, C30_per_querier_refuted, C30_agreeing_queriers, C24_cache_conserved, C24_cache_drop_ok, C24_cache_alone_lossless, C24_cache_refuted, C24_query_start_lost_iff
* `P_Compare.v`, closed under the global context: C76_operations, C76_operations_reflexive, C76_operations_total, C76_kinds, C76_same_kind, C76_StatInt, C76_StatIntPercentAdditive, C76_StatIntPercent, C76_StatIntFraction, C76_Fraction_StatFloat, C76_Fraction_StatFloatAdditive, C76_Fraction_StatMult, C76_unreduced_refuted
* `P_Compare.v`, axioms `ClassicalDedekindReals.sig_forall_dec`, `ClassicalDedekindReals.sig_not_dec`, `Classical_Prop.classic`, `FunctionalExtensionality.functional_extensionality_dep`: C76_operands, C76_nan_refuted, C76_StatFloat, C76_StatFloatAdditive, C76_StatMult, C76_StatIntFloatMul
* `P_CompareAs.v`, axioms `ClassicalDedekindReals.sig_forall_dec`, `ClassicalDedekindReals.sig_not_dec`, `Classical_Prop.classic`, `FunctionalExtensionality.functional_extensionality_dep`: C76_int_operands, C76_float_operands
* `P_Debug.v`, closed under the global context: C60_map, C60_map_safe, C60_defaults, C60_defaults_refuted, C60_cache, C60_cache_safe, C60_pair, C60_registry
* `P_Debug2.v`, closed under the global context: C60_defaults_iff
* `P_Defaults.v`, closed under the global context: C23_defaults_map, C23_untouched_default, C23_no_ub, C23_total, C23_patch_unregistered, C23_defaults_map_refuted, C24_defaults_conserved, C24_defaults_lost_iff, C24_defaults_drop_once, C24_get_dyn_lost_iff, C24_defaults_refuted, C24_into_result_lost_iff
* `P_Defaults2.v`, closed under the global context: C23_ub_iff, C23_any_history, C24_defaults_drop_iff, C23_query_orphaned
* `P_Depth.v`, closed under the global context: C84_depth
* `P_Derive.v`, closed under the global context: C40_indices_distinct_iff, C40_indices_distinct_refuted, C40_from_index_first, C40_round_trip_iff, C40_first_explicit, C40_all_implicit, C40_bad_index, C40_values_names, C40_vtable_names_iff
* `P_EndToEnd.v`, closed under the global context: C65_query, C65_depends_only, C65_StatInt_checked, C65_StatInt_fits, C65_StatIntPercentAdditive_checked, C65_StatIntFraction_checked
* `P_EndToEnd2.v`, closed under the global context: C65_StatInt_wrapping, C65_StatIntPercentAdditive_fits, C65_StatIntFraction_fits, C65_StatIntPercent
* `P_EndToEnd2.v`, axioms `ClassicalDedekindReals.sig_forall_dec`, `ClassicalDedekindReals.sig_not_dec`, `Classical_Prop.classic`, `FunctionalExtensionality.functional_extensionality_dep`: C65_StatFloat, C65_StatFloat_exact, C65_StatFloatAdditive, C65_StatFloatAdditive_exact, C65_StatMult, C65_StatMult_exact, C65_StatIntFloatMul_fits, C65_StatIntFloatMul_exact
* `P_Equations.v`, closed under the global context: C87_exists, C87_unique, C87_answers, C84_grounded, C87_any_rules_refuted
* `P_FlagTypes.v`, closed under the global context: C04_int_flags, C04_bool_flags, C41_lexicographic, C04_key_order
* `P_Float.v`, closed under the global context: C46_fraction_within_bounds, C46_fraction_bounds_accumulate, C11_fraction_base
* `P_Float.v`, axioms `ClassicalDedekindReals.sig_forall_dec`, `ClassicalDedekindReals.sig_not_dec`, `Classical_Prop.classic`, `FunctionalExtensionality.functional_extensionality_dep`: C20_float_rounding, C20_float_rounding_special, C45_eval, C45_addend_fits, C45_total, C45_base, C45_base_exact, C45_base_f64, C45_base_f32, C45_base_refuted, C46_StatFloat_within_bounds, C46_StatFloatAdditive_within_bounds, C46_StatMult_within_bounds, C46_StatFloat_bounds_accumulate, C46_StatFloatAdditive_bounds_accumulate, C46_StatMult_bounds_accumulate, C46_defaults_not_nan, C11_float_base, C11_float_base_refuted
* `P_Float.v`, axioms `ClassicalDedekindReals.sig_forall_dec`, `FunctionalExtensionality.functional_extensionality_dep`: C20_float_rounding_unique, C46_never_nan
* `P_FloatTotals.v`, axioms `ClassicalDedekindReals.sig_forall_dec`, `ClassicalDedekindReals.sig_not_dec`, `Classical_Prop.classic`, `FunctionalExtensionality.functional_extensionality_dep`: C59_StatFloat, C59_StatFloat_exact, C59_StatFloat_order_free, C59_StatFloatAdditive, C59_StatFloatAdditive_exact, C59_StatFloatAdditive_order_free, C59_StatMult, C59_StatMult_exact, C59_StatMult_order_free, C59_StatIntFloatMul_checked, C59_StatIntFloatMul_fits, C59_StatIntFloatMul_exact
* `P_Formats.v`, axioms `ClassicalDedekindReals.sig_forall_dec`, `ClassicalDedekindReals.sig_not_dec`, `Classical_Prop.classic`, `FunctionalExtensionality.functional_extensionality_dep`: C59_f32, C59_f64
* `P_FracTotals.v`, closed under the global context: C59_Fraction_StatFloat_checked, C59_Fraction_StatFloat_fits, C59_Fraction_StatFloat_order_free, C59_Fraction_StatFloatAdditive_checked, C59_Fraction_StatFloatAdditive_fits, C59_Fraction_StatFloatAdditive_order_free, C59_Fraction_StatMult_checked, C59_Fraction_StatMult_fits, C59_Fraction_StatMult_order_free, C65_Fraction_StatFloat_checked, C65_Fraction_StatFloat_fits, C65_Fraction_StatFloatAdditive_checked, C65_Fraction_StatFloatAdditive_fits, C65_Fraction_StatMult_checked, C65_Fraction_StatMult_fits
* `P_Held.v`, closed under the global context: C86_query, C86_relation
* `P_Held2.v`, axioms `ClassicalDedekindReals.sig_forall_dec`, `ClassicalDedekindReals.sig_not_dec`, `Classical_Prop.classic`, `FunctionalExtensionality.functional_extensionality_dep`: C86_query_types, C86_relation_types
* `P_Layout.v`, closed under the global context: C25_validate_exact, C25_others_panic_before_access, C25_buffer_is_a_variable, C25_from_undefined_exactly, C25_from_in_bounds_and_aligned_refuted, C26_struct, C26_struct_unique, C26_StatInt, C26_StatFloat, C26_containers, C26_every_parameter_refuted
* `P_Layout2.v`, closed under the global context: C26_layouts, C26_sizes
* `P_Lock.v`, closed under the global context: C61_exclusive, C61_atomic, C61_all_orders, C61_no_deadlock, C61_finite, C61_answers, C61_reentry_refuted
* `P_Macro.v`, closed under the global context: C69_accepts_iff, C69_refused_iff, C69_enum, C69_ignored, C69_value_given_refuted
* `P_MonoFrac.v`, closed under the global context: C75_Fraction_StatFloat, C75_Fraction_StatFloatAdditive, C75_Fraction_StatMult
* `P_MonoQuery.v`, closed under the global context: C75_query_answers, C75_query_StatIntRaised, C75_query_StatIntPercentAdditive, C75_query_StatIntFraction
* `P_MonoQuery.v`, axioms `ClassicalDedekindReals.sig_forall_dec`, `ClassicalDedekindReals.sig_not_dec`, `Classical_Prop.classic`, `FunctionalExtensionality.functional_extensionality_dep`: C75_query_StatFloat, C75_query_StatFloatAdditive, C75_query_StatMult, C75_query_StatIntFloatMul
* `P_Monotone.v`, closed under the global context: C75_StatInt, C75_wrapping_refuted, C75_raise_refuted, C75_percent_default_refuted, C75_StatIntPercentAdditive, C75_StatIntFraction, C75_query, C75_query_StatInt
* `P_Monotone.v`, axioms `ClassicalDedekindReals.sig_forall_dec`, `ClassicalDedekindReals.sig_not_dec`, `Classical_Prop.classic`, `FunctionalExtensionality.functional_extensionality_dep`: C75_StatFloat, C75_StatFloatAdditive, C75_StatMult, C75_StatIntFloatMul
* `P_Moved.v`, closed under the global context: C79_moved, C79_agree, C79_order_free_types, C79_checked_types, C79_saturating_refuted, C79_checked_panic_refuted, C79_Prioritized_refuted
* `P_Moved.v`, axioms `ClassicalDedekindReals.sig_forall_dec`, `ClassicalDedekindReals.sig_not_dec`, `Classical_Prop.classic`, `FunctionalExtensionality.functional_extensionality_dep`: C79_float_refuted
* `P_Neutral.v`, closed under the global context: C12_fraction
* `P_Neutral.v`, axioms `ClassicalDedekindReals.sig_forall_dec`, `ClassicalDedekindReals.sig_not_dec`, `Classical_Prop.classic`, `FunctionalExtensionality.functional_extensionality_dep`: C12_StatFloat, C12_StatFloatAdditive, C12_StatMult, C12_float_built, C12_float_refuted, C12_StatIntFloatMul
* `P_Neutral2.v`, closed under the global context: C12_bool, C12_Prioritized_right, C12_Prioritized_left, C12_Prioritized_split, C12_Prioritized_refuted, C14_documented_when, C14_documented_iff
* `P_NoRepeats.v`, closed under the global context: C07_no_repeats, C51_no_repeats, C51_repeats_refuted
* `P_Once.v`, closed under the global context: C71_once, C71_history, C71_hit, C71_miss, C71_threads, C71_threads_refuted, C71_swapped_refuted
* `P_Pair.v`, closed under the global context: C41_total_order, C41_equality, C41_operators, C42_first_matching_arm, C42_no_arm, C42_runs_first_matching_arm_refuted, C43_safe_code_keeps_pair_typed, C43_typed_result_if_stat_kept, C43_typed_result_refuted, C55_is, C55_is_then_cast, C55_cast, C55_into_result, C55_unerased
* `P_Poison.v`, closed under the global context: C57_user_panics_harmless, C57_answers_right, C57_dropped_once, C57_poison_is_permanent, C57_poisoned_queries_panic, C57_clone_panic_refuted
* `P_Poison2.v`, closed under the global context: C57_alone, C57_poisoned_iff
* `P_Qualifier.v`, closed under the global context: C01_aggregate_matches_exactly, C01_aggregate_matches_exactly_int, C01_blanket_lawful, C01_int_lawful, C01_bool_lawful, C02_exact_matches_exactly, C02_exact_denies_general, C02_no_double_count, C02_set_equals_not_used_refuted, C03_aggregate_monotone, C03_none_matches_all, C03_only_none_matches_none, C03_and_all_of_narrows, C03_and_any_of_widens, C03_builder_order_all, C03_builder_order_any, C03_builder_order_mixed
* `P_Query.v`, closed under the global context: C31_unmarked, C31_unmarked_relation, C31_marked, C31_marked_relation, C32_sources, C32_attached, C32_appends, C32_only_own_and_children, C33_order_free, C33_order_free_if_done, C34_terminates_iff, C34_rank, C34_cycle, C35_sources, C35_not_cached, C36_sources, C36_disjunction, C36_gated_refuted, C36_unmarked_no_children, C43_queries_sound, C43_queries_refuted, C44_eval, C44_relation_eval, C44_noop
* `P_Ratio.v`, closed under the global context: C19_new_exact_or_panics, C19_add_exact_or_panics, C19_sub_exact_or_panics, C19_mul_exact_or_panics, C19_mul_succeeds_when_representable, C19_release_agrees, C19_order_of_rationals, C19_lowest_terms_unique, C19_add_panics_only_if_unrepresentable_refuted, C19_release_exact_refuted, C20_fraction_rounding, C20_rounding_unique, C20_floor_is_Qfloor, C20_ceil_is_Qceiling, C20_fraction_overflow_panics, C20_fraction_floor_release_refuted, C20_fraction_ceil_checked_total_refuted, C21_from_i64_nearest, C21_from_i64_wide_panics, C21_from_i64_total_refuted
* `P_RatioAlgo.v`, closed under the global context: C19_gcd_algorithm, C19_order_algorithm
* `P_RatioAlgo2.v`, closed under the global context: C19_division_algorithm
* `P_RatioIff.v`, closed under the global context: C19_new_succeeds, C19_new_iff, C19_add_iff, C19_sub_iff, C19_mul_iff, C63_rem_iff, C63_div_iff
* `P_RatioOps.v`, closed under the global context: C63_div_exact_or_panics, C63_div_zero, C63_div_succeeds, C63_div_edge_refuted, C63_rem_exact_or_panics, C63_remainder_unique, C63_rem_zero, C63_rem_min_refuted, C63_integer_operands, C63_release_agrees, C63_release_exact_refuted
* `P_Registry.v`, closed under the global context: C37_register_resolves, C37_register_again, C37_register_panics_exactly, C37_register_panics_on_clash, C37_register_panics_only_on_earlier_refuted, C37_register_panic_state, C37_replace_binds, C37_history_sound, C37_history_resolves
* `P_Reload.v`, closed under the global context: C77_no_trace, C77_derived, C77_query, C77_same_answers, C77_other_names_refuted
* `P_Reorder.v`, closed under the global context: C82_reordered, C82_order_free_types, C82_agree, C82_checked_types, C82_base_refuted
* `P_ReorderAt.v`, closed under the global context: C82_reordered_at, C82_order_free_types_at, C82_agree_at, C82_checked_types_at
* `P_Rules.v`, closed under the global context: C80_query, C80_eval, C80_follows, C80_settles, C80_StatInt_checked
* `P_RulesMono.v`, closed under the global context: C81_more, C81_StatInt, C81_costs_refuted
* `P_RulesMonoAt.v`, closed under the global context: C81_more_at, C81_StatInt_at
* `P_Serde.v`, closed under the global context: C38_same_process, C38_history_same_process, C38_registered_names_lead_back, C38_other_process_content, C38_other_process_same_order, C38_other_process_one_type, C38_other_process_refuted, C39_accepted_iff, C39_entry_iff, C39_qualifier_iff, C39_single_faults, C39_faulty_item_no_map, C39_faulty_item_error, C39_loaded_is_typed, C39_always_error_refuted, C39_bad_order_accepted_refuted, C24_decoding_leaks_exactly, C50_no_serialize, C51_canonical_document
* `P_StatMap.v`, closed under the global context: C04_binary_search_contract_old, C04_binary_search_contract_new, C04_map_semantics, C04_total, C05_query_joins_exactly, C05_selection_unique, C05_query_joins_iter, C06_iter, C06_iter_mut, C06_remove_all, C07_extend_fresh_keys, C07_from_iter_is_extend, C07_extend_keeps_every_entry, C07_remove_takes_one, C07_remove_then_get_refuted, C07_repeated_key_query_refuted, C22_operations_safe, C22_observers_safe, C22_unsorted_vector_refuted, C24_map_values_conserved, C24_map_leaks_exactly_overwritten, C24_map_no_leak_refuted, C47_stream_is_query, C48_clone_equal, C48_clone_values_are_new
* `P_Temporary.v`, closed under the global context: C78_no_trace, C78_returns, C78_while_it_lasts, C78_same_answers, C78_shared_key_refuted
* `P_Ties.v`, closed under the global context: C85_relation, C85_eval, C85_unmarked
* `P_Totals.v`, closed under the global context: C58_StatInt_checked, C58_StatInt_wrapping, C58_StatInt_fits, C58_StatIntPercentAdditive_checked, C58_StatIntPercentAdditive_fits, C58_StatIntFraction_checked, C58_StatIntFraction_fits, C58_StatIntPercent_based, C58_StatIntPercent_default
* `P_Totals2.v`, closed under the global context: C58_StatIntPercent, C58_rate_any_form
* `P_Types.v`, closed under the global context: C08_StatInt_order_free, C08_StatIntPercentAdditive_order_free, C08_StatFlags_order_free, C08_StatFlags_int_order_free, C08_StatExists_order_free, C08_bool_order_free, C08_StatOnce_order_free, C09_StatInt_checked_agree, C09_StatIntPercentAdditive_checked_agree, C09_StatIntFraction_checked_agree, C09_StatInt_unsigned_saturating_order_free, C09_signed_saturating_refuted, C09_checked_panic_refuted, C09_release_fraction_refuted, C09_Prioritized_refuted, C10_StatInt_eval_within_bounds, C10_StatIntFraction_eval_within_bounds, C10_StatIntPercentAdditive_eval_within_bounds, C10_StatIntPercent_eval_within_bounds, C10_StatInt_bounds_accumulate, C10_StatIntFraction_bounds_accumulate, C10_StatIntPercentAdditive_bounds_accumulate, C10_StatIntPercent_bounds_accumulate, C10_contributed_bounds_respected, C11_StatInt_base, C11_StatIntFraction_base, C11_StatIntPercent_base, C11_StatIntPercentAdditive_base, C11_other_types_base, C11_StatIntPercentAdditive_refuted, C11_StatIntFraction_floor_min_refuted, C12_StatInt, C12_StatIntPercentAdditive, C12_StatIntFraction, C12_StatFlags, C12_StatExists, C12_StatOnce, C13_StatIntPercent_query_doubles, C13_StatIntPercent_query_refuted, C13_StatIntPercent_default_neutral_refuted, C13_StatIntPercent_separate_multipliers_refuted, C14_Prioritized_takes_last_above_initial, C14_Prioritized_keeps_initial, C14_Prioritized_default_priority, C14_Prioritized_documented_refuted, C15_StatOnce_counts, C15_StatOnce_try_set, C15_StatOnce_accessors, C16_StatFlags_exclusion_wins, C16_int_flags_lawful, C16_bool_flags_lawful, C17_StatExists_or, C17_bool_join, C17_bool_or_refuted, C17_bool_operations_ignored, C18_formula_total, C18_checked_never_wrong, C18_narrow_scale_refuted, C18_product_fits_refuted, C18_scale_kept, C18_scale_zero_panics, C18_wide_types_panic, C49_formula_total, C49_checked_never_wrong, C49_release_refuted
* `P_Types.v`, axioms `ClassicalDedekindReals.sig_forall_dec`, `ClassicalDedekindReals.sig_not_dec`, `Classical_Prop.classic`, `FunctionalExtensionality.functional_extensionality_dep`: C09_f32_refuted, C10_StatIntFloatMul_eval_within_bounds, C10_StatIntFloatMul_bounds_accumulate
* `P_Unaffected.v`, closed under the global context: C83_unaffected
* `P_Unwind.v`, closed under the global context: C56_caught_panics_harmless, C56_panic_is_local, C56_slot_left, C56_loop_left, C56_extend_panic_refuted, C56_extend_sorts_again
* `P_Utf8.v`, closed under the global context: C70_utf8, C70_strings
* `P_VTable.v`, closed under the global context: C67_invariant, C67_never_shared, C67_covariant, C67_rigid, C67_declared_refuted, C67_tables_safe, C67_tables_observers, C67_pairs, C67_same_as_map, C67_several_tables_refuted, C67_merged_refuted
* `P_ValueBytes.v`, closed under the global context: C72_integers, C72_fields, C72_variants, C72_round_trip, C72_no_prefix, C72_built_int, C72_built_fraction, C72_built_percent, C72_built_flags, C72_built_once, C72_built_prioritized, C72_maps, C72_bool_str, C72_nothing_written, C72_fraction_refuted, C72_typeless_refuted
* `P_ValueBytes.v`, axioms `ClassicalDedekindReals.sig_forall_dec`, `ClassicalDedekindReals.sig_not_dec`, `Classical_Prop.classic`, `FunctionalExtensionality.functional_extensionality_dep`: C72_floats, C72_returns, C72_built_float_mul
* `P_ValueSerde.v`, closed under the global context: C62_struct, C62_variant, C62_number, C62_reads_fraction, C62_reads_four_fields, C62_reads_rounded, C62_reads_percent, C62_reads_mult, C62_reads_flags, C62_reads_prioritized, C62_reads_once, C62_reads_operation, C62_round_trip, C62_operations, C62_unsupported, C62_loaded_in_range, C62_built_int, C62_built_fraction, C62_built_percent_additive, C62_built_percent, C62_built_flags, C62_built_once, C62_built_prioritized, C62_maps, C62_entry_iff, C62_returns, C62_cache_empty, C62_fraction_refuted
* `P_ValueSerde.v`, axioms `ClassicalDedekindReals.sig_forall_dec`, `ClassicalDedekindReals.sig_not_dec`, `Classical_Prop.classic`, `FunctionalExtensionality.functional_extensionality_dep`: C62_built_float_mul
* `P_ValueSerde5.v`, closed under the global context: C62_leaves
* `P_World.v`, closed under the global context: C52_resources, C52_defaults_reach_queries, C52_relations_reach_queries, C53_clear_panics, C54_fresh_after_clear, C54_stale_until_clear, C54_reflects_registration_refuted, C54_seeded
* `P_World2.v`, closed under the global context: C52_defaults_any
* `P_WorldUnwind.v`, closed under the global context: C73_resources, C73_defaults, C73_defined, C73_fresh, C73_same, C73_atomic_refuted
* `P_WorldUnwind2.v`, closed under the global context: C73_defaults_any, C73_ub_iff
* `P_Zeros.v`, closed under the global context: C74_contract
* `P_Zeros.v`, axioms `ClassicalDedekindReals.sig_forall_dec`, `ClassicalDedekindReals.sig_not_dec`, `Classical_Prop.classic`, `FunctionalExtensionality.functional_extensionality_dep`: C74_same_means, C74_float, C74_additive, C74_mult, C74_own, C74_rounding, C74_sign_refuted
<!-- end of assumptions -->
