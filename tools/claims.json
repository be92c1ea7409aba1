{
 "C08": {
  "status": "proved",
  "note": "Every permutation of contributions gives the same outcome, for arithmetic that wraps (Wrapping newtypes, or primitives without overflow checks)."
 },
 "C09": {
  "status": "proved",
  "note": "False as stated: refuted for signed Saturating, checked primitives (one order panics), unchecked fractions, f32 and Prioritized. Proved for everything else: checked orders that succeed agree, unsigned Saturating needs no order."
 },
 "C10": {
  "status": "proved",
  "note": "Proved for every integer type, including the float multiplied one."
 },
 "C11": {
  "status": "proved",
  "note": "Proved with the exact side conditions for every type; false at the edges and refuted there: percentages once b*SCALE overflows, Floor at MIN in checked builds, NaN and infinite floats, integers with more digits than the float multiplier has."
 },
 "C12": {
  "status": "proved",
  "note": "Both laws, panics included, for the listed types, and also for bool, for integers with float multipliers, for fractions in place of floats, and for the float stats on exactly the settled values (C12_StatFloat, C12_StatFloatAdditive, C12_StatMult are equivalences). Every float value made from the default and from bases other than -0.0 is settled (C12_float_built); a base of -0.0 becomes 0.0 (C12_float_refuted). Not among the listed types: for Prioritized both laws fail, exactly when is proved (C12_Prioritized_right, C12_Prioritized_left, C12_Prioritized_split)."
 },
 "C13": {
  "status": "proved",
  "note": "False of the code: three refutations and the exact value a query returns, 2*(b+1)."
 },
 "C14": {
  "status": "proved",
  "note": "False of the code for both variants: refuted by C14_Prioritized_documented_refuted. What the code computes is proved instead, and exactly when it is the documented result (C14_documented_when, C14_documented_iff)."
 },
 "C15": {
  "status": "proved",
  "note": "Any tree of or/join contributions."
 },
 "C16": {
  "status": "proved",
  "note": "Any tree of contributions, any lawful flag type; integers and bool shown lawful."
 },
 "C17": {
  "status": "proved",
  "note": "Proved for StatExists and for join on bool; refuted for Or on bool, whose operations are all ignored."
 },
 "C18": {
  "status": "proved",
  "note": "Proved relative to from_i64(SCALE), which is SCALE when it fits. Refuted when SCALE does not fit the integer type, and when the product fits but the sum of multipliers or the rounding of num-rational overflows (checked builds panic). Zero scale and wide types always panic."
 },
 "C49": {
  "status": "proved",
  "note": "Both directions proved; refuted without overflow checks."
 },
 "C01": {
  "status": "proved",
  "note": ""
 },
 "C04": {
  "status": "proved",
  "note": "Refinement of every history of single operations to a finite map with dependent value types; both std binary searches proved to meet the assumed contract. Bulk insertion is in C07. The order of the keys is spelled out (C04_key_order), and the two kinds of flags used as examples are shown to satisfy the assumptions on flags (C04_int_flags, C04_bool_flags)."
 },
 "C05": {
  "status": "proved",
  "note": "Proved for single-operation histories against the abstract map, and for all histories against iter."
 },
 "C06": {
  "status": "proved",
  "note": ""
 },
 "C07": {
  "status": "proved",
  "note": "False as stated: refuted for repeated keys (remove leaves the other copy, queries count both). Proved: map semantics when keys are new and distinct; for any input nothing is lost, the vector is sorted and stable, remove takes exactly one copy; and a map of any history holds no key twice iff single operations reach it (C07_no_repeats), so everything proved of single operations holds of it."
 },
 "C22": {
  "status": "proved",
  "note": "All histories including repeated keys. A witness shows the same code is undefined on an unsorted vector (see C39)."
 },
 "C24": {
  "status": "proved",
  "note": "False of the code: refuted for StatMap::insert, GlobalStatDefaults::insert, get_dyn and into_result, which leak, and for StatCache, where a racing or pair-swapping query overwrites an entry without dropping it. Proved: values are conserved, none is released twice, and the conditions under which StatMap, defaults and query start leak; a single thread with stat-keeping streams overwrites no cache entry."
 },
 "C47": {
  "status": "proved",
  "note": ""
 },
 "C48": {
  "status": "proved",
  "note": "Clone of a value is assumed to return an equal value."
 },
 "C23": {
  "status": "proved",
  "note": "False as stated: refuted, patching a stat that was never inserted stores the operation itself, and every later access to it is undefined. Proved: map semantics, safety and totality for all histories that insert before patching; and for all other histories exactly when registering, reading, querying and dropping are undefined, and what is read otherwise (C23_ub_iff, C23_any_history, C23_query_orphaned, C24_defaults_drop_iff)."
 },
 "C25": {
  "status": "proved",
  "note": "Bounds and alignment proved for every access to a Buffer variable; refuted for Buffer::from, which writes through a byte array of alignment 1 (exact addresses given)."
 },
 "C26": {
  "status": "proved",
  "note": "False of the code: refuted; the exact set of accepted parameters is proved for every provided constructor. C26_layouts and C26_sizes tie the layouts to the fields and to numbers."
 },
 "C41": {
  "status": "proved",
  "note": "C41_lexicographic spells the order out: by the address of the table first, then by the index."
 },
 "C42": {
  "status": "proved",
  "note": "First matching arm proved when the stat types fit the buffer limits; refuted otherwise (the check is made on the stat type and panics)."
 },
 "C43": {
  "status": "proved",
  "note": "False as stated: refuted, a safe stream may replace the pair, giving undefined behaviour through a query. Proved: every safe operation keeps the pair well typed, the result is typed if the stat is kept, and queries whose streams keep the stat have no undefined behaviour, cached or not."
 },
 "C27": {
  "status": "proved",
  "note": "False as stated for all stream programs: refuted with a stream that replaces the pair by one of another stat. Proved for every querier whose streams keep the stat of the pair (stats_kept), distinct vtable addresses and a lawful Eq on qualifiers, for all histories and nesting."
 },
 "C28": {
  "status": "proved",
  "note": "Proved under the hypotheses of C27 (streams keep the stat; without that C27_transparent_refuted applies). Steps are the lock-protected cache operations; lock poisoning is not modelled. Also: no thread is stuck and no schedule is infinite."
 },
 "C29": {
  "status": "proved",
  "note": "Proved: fresh after clear (under the hypotheses of C27) and stale until cleared, across different queriers and worlds, if the entity is still marked."
 },
 "C30": {
  "status": "proved",
  "note": "False of the code: refuted, the cache key does not mention the querier. Proved: queriers whose uncached answers agree may share a cache."
 },
 "C31": {
  "status": "proved",
  "note": "Proved for stats and relations, component and evaluated forms, every cache content. Hypothesis: the value type fits a buffer (otherwise the call panics)."
 },
 "C32": {
  "status": "proved",
  "note": "Proved as an equation: the answer is the starting value followed by the listed sources in order; attaching a stream inserts exactly its block; components of other entities are not read. Stated without a cache; with one, C27 applies."
 },
 "C33": {
  "status": "proved",
  "note": "Proved for sources that compute contributions independently of the value so far: all orders give the same result if the value type is order free (C08), and successful orders agree if its arithmetic may panic (C09)."
 },
 "C34": {
  "status": "proved",
  "note": "Proved: a question is answered at some depth iff the questions it leads to are well founded; a rank implies termination, cached or not; any cycle is never answered at any depth, cached or not. Non-termination is NoFuel at every depth."
 },
 "C35": {
  "status": "proved",
  "note": "Proved, with a cache present too. Global relations are applied to Entity::PLACEHOLDER."
 },
 "C36": {
  "status": "proved",
  "note": "False as stated: refuted, has_attribute is not limited to StatEntity. Proved: it is the disjunction over sources when all return (the first true decides), and children count only for marked entities."
 },
 "C44": {
  "status": "proved",
  "note": "Proved as equations of results and caches."
 },
 "C37": {
  "status": "proved",
  "note": "Proved for all registries and histories (panics included): what a successful call binds, exactly when it panics, the state after a panic, idempotence, replacement. One deviation from the wording: a type that gives one name to two of its own values panics even on an empty registry (refuted as stated, exact condition proved)."
 },
 "C38": {
  "status": "proved",
  "note": "False as stated for another build: the derived Deserialize does not re-sort and the order depends on vtable addresses, so lookups fail and a query by safe code reads a value at the wrong type (C38_other_process_refuted). Proved: identity in the same process for every map of every history; in any process the same entries come back; all observers agree when the new addresses order the map's stat types as the old ones did, in particular for maps of one stat type."
 },
 "C39": {
  "status": "proved",
  "note": "Proved as an exact characterisation of the documents that yield a map, plus each single fault. Refuted parts: without the StatDeserializers resource an unregistered name panics instead of an error; entries in a bad order are accepted and later queries are undefined."
 },
 "C40": {
  "status": "proved",
  "note": "False as stated: enum { A, B = 1 } gives both variants index 1. Proved: exact condition under which the indices are distinct, round trip iff distinct, all-implicit and first-explicit enums are fine, default arm, names, values, unit structs."
 },
 "C50": {
  "status": "proved",
  "note": "Proved for all maps and documents, and for the byte format (C50_bytes)."
 },
 "C51": {
  "status": "proved",
  "note": "False as stated for maps that hold a key twice after a bulk insertion: refuted by C51_repeats_refuted. Proved for all histories, bulk insertions included, that end without a repeated key (C51_no_repeats)."
 },
 "C20": {
  "status": "proved",
  "note": "All fractions (with the exact inputs on which floor/ceil overflow) and all finite floats of any precision, over the reals; NaN and infinities unchanged; the integer is unique."
 },
 "C45": {
  "status": "proved",
  "note": "Bounds for every multiplier including NaN and infinities, no panic, and the exact value: proved. 'from_base(x).eval() == x for every integer' is false: refuted at 16777217 with f32 and 2^53+1 with f64; the exact result (nearest representable, kept in range) is proved, hence equality whenever |x| <= 2^prec."
 },
 "C46": {
  "status": "proved",
  "note": "For every float format and every history of steps, including NaN and infinite operands; bounds accumulate ignoring NaN; never NaN, never panics. The same for fractions as floats."
 },
 "C52": {
  "status": "proved",
  "note": "Proved over all histories of World extension calls, cache insertions, seeding and queries. Calls that panic end a history here; C73 continues after them. The min/max-before-default defect of C23 appears here: C52_defaults_any says what a query returns after any calls, and that it is undefined exactly if the stat was patched but never given a value."
 },
 "C53": {
  "status": "proved",
  "note": "Proved; the drop loop of clear is shown to succeed on every cache a history can build, seeded entries included."
 },
 "C54": {
  "status": "proved",
  "note": "False as stated: refuted (a default registered after a cached query is not seen). Proved: true whenever the cache was emptied since the last change and streams keep the stat of the pair; and exactly what happens otherwise (the old value is returned until the cache is emptied, a seeded pair is returned)."
 },
 "C55": {
  "status": "proved",
  "note": "Proved, for stat types that pass the size check the casts make on the stat type itself (see C42)."
 },
 "C56": {
  "status": "proved",
  "note": "False as stated for extend: refuted (C56_extend_panic_refuted: a user iterator that panics inside extend leaves the vector unsorted and a later query is undefined behaviour). Proved for all other methods: any history with caught panics and arbitrary values left behind is free of UB and reaches a map that a panic-free history reaches; a panicking method changes only values it handed out; a later extend repairs the order."
 },
 "C57": {
  "status": "proved",
  "note": "False as stated: refuted (C57_clone_panic_refuted, C57_poisoned_queries_panic: a value whose clone panics inside cache_pair poisons the lock, after which every cached query of a marked entity and every clear panics). Proved: stream and arithmetic panics never poison; whatever panics, returned answers are the uncached ones; every cached buffer is dropped at most once. C57_alone and C57_poisoned_iff: a program alone is one of the interleavings, and the lock ends poisoned exactly if it was, or a clone or drop panicked under it."
 },
 "C58": {
  "status": "proved",
  "note": "For every tree of operations and joins. StatInt: exact in checked builds whenever it evaluates, modulo 2^bits for wrapping arithmetic, and exact in every build and flavour when the contributions leave room. StatIntPercentAdditive and StatIntFraction: exact in checked builds whenever they evaluate, and they evaluate when there is room. StatIntPercent: C58_StatIntPercent for every history, which counts 1 for each joined value without a base and adds the rates of joined values (the findings of C13); _based and _default spell out a single value."
 },
 "C59": {
  "status": "proved",
  "note": "For every tree of operations and joins and every binary format. Accuracy: n contributions give an error of at most n*2^(1-prec) times the sum of the sizes (sums) or times the product (products), for at most 2^(prec-2) contributions that stay clear of overflow and underflow. Exactness and order independence for contributions on a grid and short multipliers. Results are compared as numbers: zeros of either sign count as equal. C59_f32 and C59_f64 pin the two formats down. C59_Fraction_*: over Fraction the totals are exact rational numbers in lowest terms, with overflow checks whenever there is a result at all, and in every build when every partial total has room; either way they do not depend on the order."
 },
 "C60": {
  "status": "proved",
  "note": "False as stated for the table of defaults: refuted by C60_defaults_refuted (printing after register_stat_min or register_stat_max of a stat that was not inserted is undefined behaviour); C60_defaults_iff: it is so exactly when some stat was only patched. Proved for tables whose patched stats were inserted before, and without exception for maps, caches, pairs and the registry; a poisoned cache panics instead of printing. The output is modelled as its list of items."
 },
 "C61": {
  "status": "proved",
  "note": "False as stated for values whose Clone or Drop asks the cache they are in: refuted by C61_reentry_refuted (a deadlock). Proved when none does: until all threads have ended one can go on, and no execution is infinite (C61_no_deadlock, C61_finite). Proved without exception: exclusion, equivalence with single-step operations, answers. Poisoning is C57; fairness between waiting threads is not modelled."
 },
 "C62": {
  "status": "proved",
  "note": "False as stated in its last clause: refuted by C62_fraction_refuted (100/100 and 1/1 are accepted for the same field, and the loaded stats evaluate differently, because a fraction is not reduced when it is read). Proved: acceptance is characterised exactly for structs, variants, numbers, fractions, operations and every value type; loaded numbers are in range and denominators nonzero; everything made by a history round trips in both kinds of format (floats and user types: given that their own codecs do), and so does every map filled with such values; a saved cache loads empty and unpoisoned; no document is an unsupported operation; an entry is accepted exactly if its flags, name and value are (C62_entry_iff), and reading a map never panics (C62_returns). C62_leaves: what each leaf reader accepts, as an equivalence."
 },
 "C63": {
  "status": "proved",
  "note": "False as stated at the ends of the range: refuted by 64 / (-1/2) = -128 in i8 (panics), MIN % -1 = 0 (panics) and (1/127)/127 = 1 without overflow checks. Proved: in checked builds every quotient and remainder that is returned is exact and in lowest terms, anything else panics; representable quotients of lowest-terms fractions are found in every build away from the least integer; zero divisors panic; integer operands are that integer over one; what the checked build returns the unchecked build returns. C63_rem_iff and C63_div_iff: exactly when checked builds return."
 },
 "C64": {
  "status": "proved",
  "note": "False as stated: the lifetime of the reference is unconstrained, refuted by four accepted programs with undefined behaviour (two live references, use after into_result, after the end of scope, after replacement by another type). Proved: if the reference is bound to the borrow of the pair, no accepted program with branches and loops has undefined behaviour; these programs are among those accepted now; match_stat! keeps to that discipline if its arms do."
 },
 "C65": {
  "status": "proved",
  "note": "Composition of C05, C23, C27, C32, C47 and C58. C65_query is the general statement for every value type: the logs of the calls are turned into stories of values (S_EndToEnd.account, start: a separate reading of the logs that knows nothing of vectors, searches or buffers), and the answer is the worth of the starting story joined with the selected stories in order. C65_depends_only: entries that the query does not select, other entities and past queries do not matter. The remaining theorems give the totals in closed form for StatInt, StatIntPercentAdditive, StatIntFraction, StatIntPercent, StatFloat, StatFloatAdditive, StatMult and StatIntFloatMul, with C58 and C59's conditions on the contributions, for StatFloat, StatFloatAdditive and StatMult over Fraction exactly (C65_Fraction_*), and for StatFlags, StatExists, bool, StatOnce and Prioritized without conditions. Maps are streamed by components through StatMap's own StatStream implementation; other streams are covered by C32. No stat may have been patched without ever being given a default (C23 refutes the rest), and extend must have been given new keys, each once (C07 refutes the rest)."
 },
 "C66": {
  "status": "proved",
  "note": "Proved for all programs, flags, orders and histories of calls; the binary search and the sort are any that keep std's contract for arbitrary closures (C66_searches and C66_sorts: std's old and new search, insertion and merge sort do). The two limits named in the statement are refuted: C66_caught_sort_panic_refuted, C66_map_semantics_refuted. C66_lawful_get_same and C66_get_evaled say what get and get_evaled return."
 },
 "C67": {
  "status": "proved",
  "note": "False as stated in part (a) for the declared covariant StatVTable: refuted by C67_declared_refuted (a program the compiler accepts that reads a value at the wrong type). Proved: (a) under invariance (C67_invariant), and as declared for every type without proper subtypes (C67_covariant, C67_rigid); (b) for all crates, any tables in any call, merged tables of one value type, any order of the flags (C67_tables_safe, C67_tables_observers, C67_pairs). The logical errors the documentation mentions are exhibited: C67_several_tables_refuted, C67_merged_refuted. C67_observers_same and C67_pairs_return say what is read. The cache and the table of defaults under merged tables: C67_cache_safe, C67_cache_origin, C67_defaults_safe."
 },
 "C68": {
  "status": "proved",
  "note": "Holds except for one part, which is false as expected and refuted: C68_answers_refuted (flags that compare equal get each other's answers). Proved: C68_queries_safe (no undefined behaviour for any behaviour of the flags' functions, any panics, any interleaving, queriers of different worlds sharing the cache), C68_entries_origin and C68_hit_origin (entries only for their entity and stat), C68_drop_typed, C68_dropped_once, C68_lawful_same (with lawful flags each step is the step of C57), C68_poison (exactly when the cache is poisoned). Assumed of std's hash table: a slot is taken only after its comparison returned true. Vtables of distinct stats are assumed distinct (C67)."
 },
 "C69": {
  "status": "proved",
  "note": "False as stated in one part: refuted by C69_value_given_refuted (a value after an unknown name = value argument is reported missing). Proved: exactly which items are accepted and what is generated, exactly which complaint every other item gets, what is ignored, and that enums rustc accepts are accepted once a value is declared, with round trips decided as in C40."
 },
 "C70": {
  "status": "proved",
  "note": "False as stated in two parts: refuted by C70_one_spelling_refuted (padded lengths) and C70_counts_refuted (surplus elements read as the next entry). Proved: round trip with any rest and refusal of every proper beginning (C70_round_trip, C70_history, C70_primitives), injectivity, exactly which bytes are accepted (C70_lengths, C70_accepted_iff), that every byte string is answered with a map or an error, that loaded maps are typed, that neither reading nor writing is undefined in any world (C70_defined, C70_put_defined), and that the check of strings accepts exactly the encodings of Unicode scalar values (C70_utf8, C70_strings)."
 },
 "C71": {
  "status": "proved",
  "note": "False as stated for racing threads: refuted (C71_threads_refuted: two threads both compute one question, since the lock is not held while computing), and for streams that replace the pair by another stat's (C71_swapped_refuted). Proved: code that does not clear the cache computes no question twice and none that is in the cache, after any history, up to a panic if there is one, and what it computed is stored when it ends (C71_once, C71_history); a cached question computes nothing and leaves the cache alone (C71_hit), an uncached one is computed (C71_miss); in any interleaving a finished thread computed nothing twice, so a question at most once per thread (C71_threads)."
 },
 "C72": {
  "status": "proved",
  "note": "False as stated for equal fractions and for other types: refuted (C72_fraction_refuted: two byte strings of one number, reduced and not, load as stats of which one overflows; C72_typeless_refuted: bytes of a StatInt are read as a StatIntPercentAdditive with its fields exchanged, without an error). Proved: integers of every type, booleans and strings (exactly which bytes spell which value), both floats, structs and enums field by field and variant by variant, round trips whatever follows, truncations refused, different values never beginnings of each other, no panics, and read back for values with any history of operations and joins of every stat type; maps of them through C70."
 },
 "C19": {
  "status": "proved",
  "note": "False as stated: refuted, sums that can be represented may panic, and release builds wrap. Proved: in checked builds every result is exact and in lowest terms or the operation panics, and exactly when each of new, +, - and * succeeds; release builds agree where checked builds return. C19_division_algorithm: the floor division used by num-integer is the mathematical one for all signs."
 },
 "C73": {
  "status": "proved",
  "note": "False as stated in its last sentence: refuted by C73_atomic_refuted (names registered before a clash stay). Proved: existence and content of every resource over histories whose calls may panic anywhere; the table of defaults is the map of insertions with patches as far as they came; no call but a query can have undefined behaviour; a cache filled by panicking queries is transparent; without panics the histories are those of C52. C73_defaults_any and C73_ub_iff drop the condition on patches: they say what the table holds after any calls and exactly when a history is undefined."
 },
 "C74": {
  "status": "proved",
  "note": "Each call may use min and max of its own (reached_float, reached_additive, reached_mult); std's contract is stated over == and <= only. What the model computes is among what may come out (C74_own), and both choices exist (C74_contract). The sign itself does depend on the choice (C74_sign_refuted)."
 },
 "C75": {
  "status": "proved",
  "note": "Proved for StatInt (overflow checks or saturating), StatIntPercentAdditive, StatIntFraction, StatFloat, StatFloatAdditive, StatMult and StatIntFloatMul, and for StatFloat, StatFloatAdditive and StatMult over Fraction (C75_Fraction_*, with overflow checks and operands in lowest terms), over all trees of operations and joins, and for queries of games (C75_query and C75_query_answers for every value type; spelled out for each of the binary and integer types in C75_query_*; C75_query_StatFlags: bits granted are never lost unless banned). The conditions are needed: C75_wrapping_refuted, C75_raise_refuted. StatIntPercent is left out since joining a default already changes it: C75_percent_default_refuted."
 },
 "C76": {
  "status": "proved",
  "note": "C76_operations, C76_operations_reflexive, C76_operations_total: for every stat type, from the laws of the operands, which C76_operands proves for integers, bool, Unsupported, fractions with a positive denominator and floats. C76_kinds and C76_same_kind give the order itself. Equal values are interchangeable: C76_StatInt etc. for all the provided types that implement PartialEq, with fractions in lowest terms. The types without PartialEq (StatFlags, StatExists, StatOnce, Prioritized) have no such claim. False without conditions: an operation holding NaN does not equal itself (C76_nan_refuted), and fractions that are not in lowest terms, which documents and assignments through DerefMut can produce, are equal but overflow differently (C76_unreduced_refuted). The bounds of the derives (PartialOrd of StatOperation needs PartialOrd of the stat, which of the provided types only bool has) are not modelled."
 },
 "C77": {
  "status": "proved",
  "note": "C77_no_trace: for every life of a map, a list of calls, documents and bytes, it is lived through if and only if the calls alone return, with the same map. Savable is asked of what the map holds when it is saved; C77_derived derives it from the values that calls put in for derived implementations of serde (C62 and C72 prove that for the provided value types). C77_query and C77_same_answers carry this to games, over C65. All processes are runs of the same program with stats at the same addresses: C38 says what happens otherwise. False where names mean other stats in the process that loads: C77_other_names_refuted. Loading is driven by this crate's implementations; the formats are documents as in C38 and the bytes of postcard as in C70."
 },
 "C78": {
  "status": "proved",
  "note": "Proved for maps built by any calls (C78_no_trace, C78_returns, C78_while_it_lasts) and for games with any number of temporary modifiers in their past, nested or not (C78_same_answers). Bulk insertion must only add new keys (fresh_history), since after it the map may hold a key twice: C07_remove_then_get_refuted. That no other call makes an entry under the key is needed: C78_shared_key_refuted."
 },
 "C79": {
  "status": "proved",
  "note": "False as stated: refuted for signed saturating integers (C79_saturating_refuted), floats (C79_float_refuted), overflow checks when only one order panics (C79_checked_panic_refuted) and Prioritized (C79_Prioritized_refuted). Proved for every value type that needs no order in the sense of C08 (C79_moved) and, if both return, of C09 (C79_agree); C79_order_free_types and C79_checked_types name the provided types: wrapping and release-mode integers, percentages, flags, bool, StatExists and StatOnce without condition, integers with overflow checks if both return."
 },
 "C80": {
  "status": "proved",
  "note": "A rule is code that may ask anything and returns operations (rule_stream applies them under is_then_cast). C80_query and C80_eval are equivalences: an answer exists exactly when the operations of all rules about the stat do and the value they lead to does not panic. C80_follows spells out rules that make one stat follow another; C80_settles needs a rank and that values and rules do not run forever by themselves; C80_StatInt_checked gives the total."
 },
 "C81": {
  "status": "proved",
  "note": "C81_more is for any value types whose results keep the order of improvements (pays, which C75 proves for each); C81_StatInt for StatInt that checks or saturates. Both answers must exist. C81_costs_refuted: a rule that takes away health for constitution, where more constitution means less health. C81_more_at and C81_StatInt_at rank questions instead of stats, so that rules may ask for the stat they are about, of another entity or for another qualifier."
 },
 "C82": {
  "status": "proved",
  "note": "C82_reordered is an equivalence for value types that are order_free (C08); C82_agree needs both answers for those that may panic (C09); the _types theorems name the provided types. The games may differ in anything that keeps the causes of every entity the same up to order. C82_base_refuted: a rule that sets a base. The theorems ending in _at rank questions instead of stats, so that rules may ask for the stat they are about, of another entity or for another qualifier."
 },
 "C83": {
  "status": "proved",
  "note": "The questions looked at are any set closed under what the rules about their stats ask (self_contained). ends covers panics, not only answers. Two cases: a rule that makes health follow from itself, which leaves constitution as it was, and entries for a qualifier that is not asked for."
 },
 "C84": {
  "status": "proved",
  "note": "Gives the bound that C80_settles leaves open: rank + 1. The case shows that it is reached: one less is not enough."
 },
 "C85": {
  "status": "proved",
  "note": "Relation components are those that hold a StatMap each and stream operations on one stat, worked out by arbitrary code from the two maps (tied). The case reads the level of one and the constitution of the other, in both directions."
 },
 "C86": {
  "status": "proved",
  "note": "C86_query and C86_relation are generic in the value type; C86_query_types and C86_relation_types are about the five types with integer bounds and assume nothing of how values are evaluated. The upper bound is stated with the greatest contributed minimum, which wins over a maximum in eval."
 },
 "C87": {
  "status": "proved",
  "note": "Books give a value, no value or a panic for every question about stats. C80_query says what an answer is in terms of the answers of the same querier; this says that no other answers fit, so that the specification (foretold, solves) determines them. Rank may depend on the entity and the qualifier too, so that a rule may ask for its own stat of another entity; C84_grounded is C84 for such ranks. C87_any_rules_refuted shows that a ranking is needed: rules in a circle can have many solutions, and queries then have no answer."
 }
}