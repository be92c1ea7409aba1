{"id": "C01", "title": "Aggregate queries match exactly the applicable modifiers", "statement": "A modifier with qualifier (any_of, all_of) applies to QualifierQuery::Aggregate(s) exactly when every flag of all_of is in s and any_of is empty or shares a flag with s.", "quantifier": "all qualifiers, all queried flag sets, every flag type whose & | == are bit-set operations", "why_tests_cant": "the flag space is exponential (and generic in the flag type); tests sample a handful of flags", "anchors": ["src/qualifier.rs: Qualifier::qualifies_as, QualifierFlag blanket impl", "README.md: Modifier and Query"]}
{"id": "C02", "title": "Exact queries deny more general modifiers and never double count", "statement": "A modifier applies to QualifierQuery::Exact{any_of, all_of} exactly when its all_of equals the queried all_of and its any_of contains the queried any_of. Hence an Exact query for a non-empty all_of never matches an unqualified modifier, and no modifier matches both Exact{_, all_of: A} and Aggregate(B) unless A is contained in B (the '50% of magic damage added to physical damage' recipe counts nothing twice).", "quantifier": "all qualifiers and all pairs of exact/aggregate queries", "why_tests_cant": "requires a statement about every modifier that could be stored", "anchors": ["src/qualifier.rs: Qualifier::qualifies_as, QualifierQuery::Exact", "README.md: Exact Query"]}
{"id": "C03", "title": "Aggregate matching is monotone and the builders narrow or widen as documented", "statement": "Adding flags to an Aggregate query never loses a matching modifier; Qualifier::none() matches every Aggregate query and only it matches Aggregate(none); and_all_of never makes a modifier match more Aggregate queries; and_any_of on a non-empty any_of never makes it match fewer; builder order does not matter.", "quantifier": "all qualifiers, all queries, all builder chains", "why_tests_cant": "universally quantified over pairs of queries", "anchors": ["src/qualifier.rs: Qualifier::{none,any_of,all_of,and_any_of,and_all_of}, QualifierQuery::{none,qualifies_none,qualify}"]}
{"id": "C04", "title": "StatMap behaves as a finite map from (qualifier, stat) to value", "statement": "After any history of new/insert/insert_base/modify/modify_with/get_mut/remove/remove_all/clear/iter_mut on a StatMap, get, get_evaled, remove, len and is_empty answer exactly as a finite map keyed by (qualifier, stat) that underwent the same history; keys not named by an operation are untouched.", "quantifier": "all finite operation histories, any number of stats, qualifiers and values, any lawful Ord on flags, any binary search meeting the std contract", "why_tests_cant": "unbounded histories and map sizes; the failure modes of a sorted vector are positional", "anchors": ["src/stat_map.rs: StatMap::{insert,insert_base,get,get_mut,get_evaled,remove,remove_all,modify,modify_with,clear,len,is_empty,binary_search}"]}
{"id": "C05", "title": "A StatMap query joins exactly the qualifying entries of the queried stat", "statement": "query_stat(q, s) is the default value of s joined with the value of every entry of stat s whose qualifier qualifies as q, each exactly once, and with no other entry; eval_stat is its evaluation.", "quantifier": "all maps reachable by any history, all queries and stats", "why_tests_cant": "depends on partition_point slicing over arbitrary contents", "anchors": ["src/stat_map.rs: StatMap::{query_stat,eval_stat,slice}, StatStream for StatMap"]}
{"id": "C06", "title": "iter, iter_mut and remove_all touch exactly one stat", "statement": "iter(s) yields each (qualifier, value) stored for s once in ascending qualifier order and nothing else; iter_mut changes only those values; remove_all(s) removes exactly those entries and keeps all others.", "quantifier": "all reachable maps, all stats", "why_tests_cant": "unbounded contents and neighbouring stats", "anchors": ["src/stat_map.rs: StatMap::{iter,iter_mut,remove_all,slice,slice_mut}"]}
{"id": "C07", "title": "Maps built in bulk behave as maps", "statement": "from_iter and extend leave a map in which every supplied entry is found by queries and, as for insert, each (qualifier, stat) has one value: after remove the key is absent.", "quantifier": "all input sequences including repeated keys", "why_tests_cant": "the repeated-key behaviour is unbounded and depends on position inside the vector", "anchors": ["src/stat_map.rs: FromIterator, Extend, StatMap::remove"]}
{"id": "C08", "title": "Stored values do not depend on the order of unordered operations", "statement": "For integer stats on wrapping arithmetic (release primitives and Wrapping<T>), and for flags, existence and once stats, applying any list of add/mul/min/max/or/not operations, or joining any list of values, gives the same stat value for every permutation of the list.", "quantifier": "all lists of operations of any length, all permutations, all integer widths", "why_tests_cant": "factorially many orders", "anchors": ["src/operations.rs: StatOperation::write_to", "src/types/int_ratio.rs: StatInt", "src/types/int_pct.rs: StatIntPercentAdditive", "src/types/flags.rs", "src/types/singleton.rs", "README.md: Unordered Operations"]}
{"id": "C09", "title": "No ordering is ever needed, for every provided value type", "statement": "README: unordered operations ensure no explicit ordering is ever needed when querying for stats. For every value type in types::* and every numeric parameter, joining contributions in any order evaluates to the same result.", "quantifier": "all provided value types and parameters (Saturating integers, f32/f64, overflow-checked builds, Prioritized), all permutations", "why_tests_cant": "needs a search over value triples and orders per type", "anchors": ["README.md: Unordered Operations", "src/types/prioritized.rs", "src/types/float.rs", "src/num_traits.rs: Int for Saturating"]}
{"id": "C10", "title": "Evaluation respects the registered bounds", "statement": "For every integer stat type, a successful eval is at least min, and at most max whenever min <= max; when min > max the result is exactly min. min() operations only raise the lower bound and max() operations only lower the upper bound, whatever the order.", "quantifier": "all addends, multipliers, bounds, integer types, rounding modes, overflow modes", "why_tests_cant": "arithmetic over full machine ranges", "anchors": ["src/types/int_ratio.rs: eval,min,max", "src/types/int_pct.rs: eval,min,max", "src/types/float.rs: eval"]}
{"id": "C11", "title": "from_base followed by eval returns the base", "statement": "Inserting a stat in evaluated form and evaluating it back returns the same number: from_base(x).eval() == x.", "quantifier": "all bases of all numeric types and rounding modes", "why_tests_cant": "full machine ranges; failures sit at the edges", "anchors": ["src/types/*.rs: from_base, eval", "src/stat_map.rs: insert_base, get_evaled"]}
{"id": "C12", "title": "The default value is neutral and a modifier may be split into separate entries", "statement": "Joining the default value on either side changes nothing, and joining a fresh value carrying one operation equals applying the operation in place: join(v, op.into_stat()) == op.write_to(v) for add, mul, min, max, or, not.", "quantifier": "all values and operations of StatInt, StatIntFraction, StatIntPercentAdditive, StatIntFloatMul, StatFloat, StatFloatAdditive, StatMult, StatFlags, StatExists, StatOnce", "why_tests_cant": "universally quantified algebraic law", "anchors": ["src/operations.rs: StatOperation::{write_to,into_stat}, StatValue::join"]}
{"id": "C13", "title": "StatIntPercent aggregates like the other integer stats", "statement": "A StatIntPercent entry inserted with insert_base(b) queries back to b, joining default changes nothing, and multipliers from separate entries multiply.", "quantifier": "all bases and multipliers", "why_tests_cant": "the law is universal; the provided tests never evaluate a StatIntPercent", "anchors": ["src/types/int_pct.rs: StatIntPercent::{default,join,mul,eval,from_base}"]}
{"id": "C14", "title": "Prioritized evaluates to the occurrence with the highest priority", "statement": "After joining any sequence of prioritized values, eval is the value of the first (LAST = false) or last (LAST = true) occurrence with the highest priority.", "quantifier": "all sequences of contributions and priorities", "why_tests_cant": "unbounded sequences", "anchors": ["src/types/prioritized.rs: Prioritized::join"]}
{"id": "C15", "title": "StatOnce counts contributions", "statement": "After any mix of or/set/join contributions a StatOnce is NotFound with none, Found(x) with exactly one contribution x and FoundMultiple with two or more, regardless of order and grouping; try_set never produces FoundMultiple and reports whether it stored.", "quantifier": "all contribution sequences and groupings into joins", "why_tests_cant": "unbounded sequences and join trees", "anchors": ["src/types/singleton.rs: StatOnce"]}
{"id": "C16", "title": "StatFlags: exclusion wins over inclusion", "statement": "A flag is in the evaluated StatFlags exactly when some contribution added it with or/from_base and no contribution excluded it with not, whatever the order.", "quantifier": "all flags, all contribution sequences, flag types that are bit sets", "why_tests_cant": "unbounded sequences", "anchors": ["src/types/flags.rs", "src/num_traits.rs: Flags::exclude"]}
{"id": "C17", "title": "Boolean stats: or sets the value", "statement": "Applying StatOperation::Or(b) (or joining b) to a bool or StatExists stat makes it evaluate to the disjunction of everything contributed.", "quantifier": "all contribution sequences", "why_tests_cant": "universal over sequences", "anchors": ["src/operations.rs: StatValue for bool", "src/types/singleton.rs: StatExists"]}
{"id": "C18", "title": "Percentage stats evaluate to the documented formula", "statement": "StatIntPercentAdditive evaluates to round(addend * (SCALE + sum of multipliers) / SCALE) clamped to its bounds whenever addend * (SCALE + mult) fits the integer type; in overflow-checked builds it never returns anything else.", "quantifier": "all addends, multipliers, scales, rounding modes, integer types", "why_tests_cant": "full machine ranges", "anchors": ["src/types/int_pct.rs: StatIntPercentAdditive::eval", "src/num_traits.rs: Int::{from_i64,build_fraction,from_fraction}"]}
{"id": "C19", "title": "Fractions are exact or fail loudly", "statement": "In overflow-checked builds every Fraction operation (new, +, -, *, floor, ceil, round, trunc) either returns the exact rational result in lowest terms with positive denominator or panics; in release builds it returns the same whenever the checked build would not panic.", "quantifier": "all numerators, denominators and integer types", "why_tests_cant": "full machine ranges", "anchors": ["src/num_traits.rs: Fraction, impl_ops, Float for Fraction", "num-rational 0.4 Ratio (dependency)"]}
{"id": "C20", "title": "Rounding modes round as documented", "statement": "Truncate rounds toward zero, Floor to the largest integer not above, Ceil to the smallest integer not below, Round to the nearest (ties away from zero), TruncateSigned like Truncate but positive to at least 1 and negative to at most -1.", "quantifier": "all fractions and all finite f32/f64", "why_tests_cant": "full ranges and tie cases", "anchors": ["src/rounding.rs", "src/num_traits.rs: Float"]}
{"id": "C21", "title": "Int::from_i64 is total", "statement": "from_i64 returns the nearest representable value for every integer type that implements Int.", "quantifier": "all i64 inputs, all twelve integer types and their Wrapping/Saturating newtypes", "why_tests_cant": "tests only use i32; the failure is per type", "anchors": ["src/num_traits.rs: Int::from_i64 (impl_int, impl_int_newtype)"]}
{"id": "C22", "title": "StatMap never confuses value types", "statement": "After any history of StatMap operations mixing stats of different value types, every access reads a value of the type it was written with (no undefined behaviour).", "quantifier": "all histories over any family of stat types", "why_tests_cant": "undefined behaviour is not observable by tests", "anchors": ["src/stat_map.rs", "src/buffer.rs", "src/stat.rs: StatInst safety invariant"]}
{"id": "C23", "title": "Global defaults: insert, patch and lookup agree", "statement": "GlobalStatDefaults::get returns the last inserted value with all later patches applied, and the type default if never registered; register_stat_min/max on an unregistered stat yields the type default with that bound.", "quantifier": "all histories of insert/patch/get over any stats", "why_tests_cant": "histories unbounded; the patch path reads memory of another type", "anchors": ["src/plugin.rs: GlobalStatDefaults::{insert,patch,get,get_dyn}, StatExtension::{register_stat_default,register_stat_min,register_stat_max}"]}
{"id": "C24", "title": "Stored values are released exactly once", "statement": "Every value moved into a StatMap, StatCache or GlobalStatDefaults is, after any history ending in drop, either returned to the caller once or dropped once; never twice, never leaked.", "quantifier": "all histories", "why_tests_cant": "leaks and double frees are invisible to assertions", "anchors": ["src/stat_map.rs: insert, remove, Drop for StatMapEntry", "src/cache.rs: cache_pair, clear, Drop", "src/plugin.rs: insert, get_dyn, Drop", "src/querier.rs: unwrap_or((stat.vtable.default)())"]}
{"id": "C25", "title": "Accepted value types fit the erased buffer", "statement": "Every type accepted at run time for Stat::Value has alignment dividing 8 and size at most 24, so each access through the 24-byte buffer is in bounds and aligned; every other type is rejected by a panic before any access.", "quantifier": "all types by size and alignment, all buffer addresses", "why_tests_cant": "ranges over all user types", "anchors": ["src/buffer.rs: validate, Buffer::{from,as_ref,as_mut,into,read_move}"]}
{"id": "C26", "title": "Every provided value type can be stored for every numeric parameter", "statement": "Each of StatInt, StatFloat, StatFloatAdditive, StatMult, StatIntPercent, StatIntPercentAdditive, StatIntFraction, StatIntFloatMul can be used as Stat::Value for every Int/Float parameter.", "quantifier": "all provided type constructors and parameters", "why_tests_cant": "tests use only 32-bit parameters", "anchors": ["src/types/*.rs repr(C, align(8)) structs", "src/buffer.rs: validate"]}
{"id": "C27", "title": "Caching is transparent for a fixed world and querier", "statement": "With a StatCache resource, any sequence of queries through one joined querier on an unchanged world returns exactly what the same queries return without a cache, including nested queries issued by streams.", "quantifier": "all worlds, all stream programs, all query sequences, all nesting", "why_tests_cant": "unbounded nested histories", "anchors": ["src/querier.rs: query_stat_erased", "src/cache.rs: StatCache::{try_get_cached_dyn,cache_pair,clear}"]}
{"id": "C28", "title": "Caching is transparent under concurrency", "statement": "Any number of threads querying and clearing one shared cache in any interleaving of their lock-protected steps each obtain the uncached result.", "quantifier": "all schedules, any number of threads", "why_tests_cant": "exponentially many interleavings", "anchors": ["src/cache.rs: RwLock-protected map", "src/querier.rs: query_stat_erased"]}
{"id": "C29", "title": "Clearing the cache restores freshness; without clearing results are stale", "statement": "After clear_cache every query answers for the current world whatever happened before; an entry stays as cached until cleared even if the world changed.", "quantifier": "all histories of mutations, queries and clears", "why_tests_cant": "unbounded histories", "anchors": ["src/querier.rs: clear_cache", "src/cache.rs: clear", "src/lib.rs doc: StatCache"]}
{"id": "C30", "title": "Cached answers are per querier", "statement": "A query through a joined querier never returns a value computed by a querier with different streams.", "quantifier": "all pairs of joined queriers sharing the cache resource", "why_tests_cant": "a statement about all pairs of queriers", "anchors": ["src/cache.rs: CachedEntry", "src/querier.rs: JoinedQuerier"]}
{"id": "C31", "title": "Only marked entities are queryable", "statement": "query_stat, query_eval, query_relation and query_relation_eval return None for entities not marked StatEntity, even if a cached value exists, and write nothing to the cache; for marked entities they return Some.", "quantifier": "all worlds, queries and cache states", "why_tests_cant": "all states", "anchors": ["src/querier.rs: query_stat_erased, query_relation_erased"]}
{"id": "C32", "title": "A query collects each source exactly once", "statement": "For a marked entity the result is the global (or type) default, then every global relation, then component streams and relation streams on the entity itself, then children streams on each direct child having the component, each exactly once and nothing from other entities; adding streams appends contributions.", "quantifier": "all worlds and all chains of with_component/with_children/with_relation", "why_tests_cant": "all worlds and querier shapes", "anchors": ["src/querier.rs: query_stat_erased, with_*", "src/stream.rs: QueryStream for (), (A,B), CxComponentStream", "src/plugin.rs: GlobalStatRelations"]}
{"id": "C33", "title": "The order in which streams and children are attached does not matter", "statement": "If every stream only joins contributions into a value type with commutative and associative join, then permuting relations, with_* calls or children does not change the query result.", "quantifier": "all permutations of streams and children", "why_tests_cant": "factorially many orders", "anchors": ["src/querier.rs: with_*", "src/stream.rs"]}
{"id": "C34", "title": "Queries terminate exactly when nested queries are well founded", "statement": "If nested queries issued by streams decrease some rank then every query terminates; a stream that re-issues its own query on the same entity never terminates.", "quantifier": "all worlds and stream programs", "why_tests_cant": "non-termination cannot be tested", "anchors": ["src/querier.rs: Querier passed to streams"]}
{"id": "C35", "title": "Relation queries", "statement": "query_relation(from, to) applies each relation stream once with (from, to) in that order when both entities have the component, skips it otherwise, starts from defaults and global relations, and neither reads nor writes a cached result of its own.", "quantifier": "all worlds and queries", "why_tests_cant": "all worlds", "anchors": ["src/querier.rs: query_relation_erased", "src/stream.rs: QueryRelationStream"]}
{"id": "C36", "title": "has_attribute is the disjunction over sources and is limited to stat entities", "statement": "has_attribute(e, a) is true exactly when some component or relation stream on e, or children stream on a direct child, reports the attribute, and e is a StatEntity.", "quantifier": "all worlds, attributes", "why_tests_cant": "all worlds", "anchors": ["src/querier.rs: has_attribute_erased", "src/stream.rs: has_attribute"]}
{"id": "C37", "title": "Stat registration", "statement": "After register::<T> succeeds every value of T resolves by name to itself and earlier names are unchanged; registering again is harmless; it panics exactly when some name is already bound to a different stat; register_replace binds every name of T to T.", "quantifier": "all registration histories", "why_tests_cant": "unbounded histories and name clashes", "anchors": ["src/plugin.rs: StatDeserializers::{register,register_replace,get}"]}
{"id": "C38", "title": "Saving and loading a StatMap is the identity", "statement": "Deserializing what was serialized, in a world where all contained stats are registered, yields a map with the same content that answers every query the same.", "quantifier": "all maps, all registered stat families, later processes with other static addresses", "why_tests_cant": "unbounded maps; the address order differs between builds", "anchors": ["src/stat_map.rs: Serialize/Deserialize for StatMapEntry, derive on StatMap", "src/stat.rs: Serialize/Deserialize for StatInst"]}
{"id": "C39", "title": "Malformed input is rejected", "statement": "Deserializing an entry that has fewer than three elements, an unregistered stat name or an undecodable qualifier or value is an error and never yields a map.", "quantifier": "all serialized documents", "why_tests_cant": "all inputs", "anchors": ["src/stat_map.rs: TupleSeed::visit_seq", "src/stat.rs: Deserialize for StatInst"]}
{"id": "C40", "title": "Derived Stat indices identify variants", "statement": "For every enum accepted by the compiler, derive(Stat) gives distinct variants distinct as_index, and from_index(as_index(v)) == v.", "quantifier": "all fieldless enums with any explicit discriminants", "why_tests_cant": "all enum shapes", "anchors": ["derive/src/lib.rs: indices, from_index, as_index"]}
{"id": "C41", "title": "StatInst comparison is a lawful total order consistent with equality and hashing", "statement": "Stat instances are totally ordered; cmp is Equal exactly when ==, which holds exactly when index and vtable coincide; equal instances hash equally.", "quantifier": "all stat instances", "why_tests_cant": "order laws are universal", "anchors": ["src/stat.rs: PartialEq, Ord, Hash for StatInst"]}
{"id": "C42", "title": "match_stat runs exactly the first matching arm", "statement": "match_stat! executes the body of the first arm whose stat (or stat type) is the queried one, with the value viewed at that stat's value type, and no other arm.", "quantifier": "all arm lists and stats", "why_tests_cant": "all arm lists", "anchors": ["src/lib.rs: match_stat!", "src/stat.rs: StatValuePair::{cast,is_then_cast,is}"]}
{"id": "C43", "title": "Queries through safe stream code never confuse value types", "statement": "Whatever safe code a stream runs on the &mut StatValuePair it is given, query_stat returns a value of the queried stat's type.", "quantifier": "all stream programs", "why_tests_cant": "undefined behaviour is not testable", "anchors": ["src/querier.rs: query_stat (x.into())", "src/stat.rs: StatValuePair::new"]}
{"id": "C44", "title": "Evaluated queries are evaluations of component queries", "statement": "query_eval and query_relation_eval return Some exactly when the component-form query does, and then its eval; NoopQuerier always answers None/false.", "quantifier": "all worlds and queries", "why_tests_cant": "all worlds", "anchors": ["src/querier.rs: Querier::{query_eval,query_relation_eval}, NoopQuerier"]}
{"id": "C45", "title": "Float multiplied integer stats", "statement": "StatIntFloatMul stays within its bounds for every multiplier including NaN and infinities, and from_base(x).eval() == x for every integer x.", "quantifier": "all integers, all f32/f64 multipliers", "why_tests_cant": "2^32 x 2^32 inputs", "anchors": ["src/types/int_ratio.rs: StatIntFloatMul"]}
{"id": "C46", "title": "Float stats stay within bounds and ignore NaN bounds", "statement": "StatFloat, StatFloatAdditive and StatMult evaluate within [min, max] (when ordered) for all non-NaN bounds, and are never NaN.", "quantifier": "all f32/f64 values including NaN and infinities", "why_tests_cant": "2^128 inputs", "anchors": ["src/types/float.rs", "src/num_traits.rs: Float for f32/f64"]}
{"id": "C47", "title": "A StatMap used as a stream equals querying it directly", "statement": "A StatMap registered as a global relation (or any StatStream position) contributes to a query exactly the entries StatMap::query_stat joins.", "quantifier": "all maps and queries", "why_tests_cant": "all maps", "anchors": ["src/stat_map.rs: StatStream for StatMap", "src/plugin.rs: register_stat_relation"]}
{"id": "C48", "title": "Cloning a StatMap", "statement": "A clone answers every operation like the original and later operations on either do not affect the other; no value is shared.", "quantifier": "all maps and histories", "why_tests_cant": "all histories", "anchors": ["src/stat_map.rs: Clone for StatMapEntry"]}
{"id": "C49", "title": "Fraction multiplied integer stats evaluate to the documented formula", "statement": "StatIntFraction evaluates to round(addend * multiplier) clamped to its bounds whenever the reduced product is representable; in overflow-checked builds it never returns anything else.", "quantifier": "all addends, fractions, rounding modes, integer types", "why_tests_cant": "full machine ranges", "anchors": ["src/types/int_ratio.rs: StatIntFraction::eval", "src/num_traits.rs: Int::{into_fraction,from_fraction}"]}
{"id": "C50", "title": "Stats without serialization support never reach a document", "statement": "A stat whose vtable was made by StatVTable::no_serialize is never written and never loaded: saving or loading an entry of it panics.", "quantifier": "all maps and documents", "why_tests_cant": "all contents and documents", "anchors": ["src/stat.rs: StatVTable::no_serialize", "src/stat_map.rs: Serialize/Deserialize for StatMapEntry"]}
{"id": "C51", "title": "The saved document depends only on the content of the map", "statement": "Two histories of a StatMap that lead to the same answers of get lead to the same vector and the same document.", "quantifier": "all pairs of histories", "why_tests_cant": "pairs of unbounded histories", "anchors": ["src/stat_map.rs: StatMap, Serialize for StatMapEntry"]}
{"id": "C52", "title": "World registration is per resource and reaches queries", "statement": "After any history of StatExtension calls each resource holds exactly what its own calls made of it (created on first use, relations in registration order), independently of the other calls; a query nothing else contributes to returns the registered default, or the type's default, with the registered relations applied in order.", "quantifier": "all histories of extension calls, cache insertions and queries", "why_tests_cant": "unbounded interleavings of calls", "anchors": ["src/plugin.rs: StatExtension for World/App", "src/querier.rs: StatQuery"]}
{"id": "C53", "title": "Clearing the cache of a world", "statement": "World::clear_stat_cache panics exactly if no StatCache resource was ever added and otherwise empties the cache and touches nothing else; StatQuery::clear_cache never panics.", "quantifier": "all histories", "why_tests_cant": "all histories", "anchors": ["src/plugin.rs: clear_stat_cache", "src/querier.rs: StatQuery::clear_cache", "src/cache.rs: clear, Drop"]}
{"id": "C54", "title": "Queries reflect what is registered when they run", "statement": "A query always returns what it would return without a cache against the defaults, relations and components present when it runs.", "quantifier": "all histories of registration, clearing and querying", "why_tests_cant": "unbounded histories", "anchors": ["src/plugin.rs: StatExtension", "src/cache.rs: cache_pair, try_get_cached_dyn", "src/querier.rs: query_stat_erased"]}
{"id": "C55", "title": "Tests and casts single out exactly one stat", "statement": "StatValuePair::is and Stat::is hold exactly for the same stat type and index. is_then_cast returns the stored value exactly for the pair's own stat, cast and into_result exactly for its stat type, and the casts on unerased values agree with them.", "quantifier": "all stat types, indices and values", "why_tests_cant": "unbounded set of stat types and indices, value types shared by several stats", "anchors": ["src/stat.rs: StatValuePair::is, cast, is_then_cast, into_result", "src/stat.rs: Stat::is, StatExt::cast, StatExt::is_then_cast"]}
{"id": "C56", "title": "A caught panic leaves a stat map usable", "statement": "When a StatMap method panics and the panic is caught, the map has the same keys as before, only values that the method handed to user code for writing may differ, and everything proved of maps still holds of it; no later operation is undefined.", "quantifier": "all histories of map calls, all points of panic, all values left behind by the panicking code", "why_tests_cant": "panics inside user callbacks at every point of every method; memory unsafety need not show up in a run", "anchors": ["src/stat_map.rs: Extend for StatMap (119-132)", "src/stat_map.rs: insert, get_mut, modify, modify_with, iter_mut, remove_all, clear"]}
{"id": "C57", "title": "Panics during queries neither corrupt nor disable the cache", "statement": "A panic in a stream, clone or drop during a cached query leaves no wrong entry: every query that returns gives the uncached answer, no cached value is dropped twice, and later queries still work.", "quantifier": "all queriers, threads, interleavings and sets of values whose clone or drop panics", "why_tests_cant": "requires panics at particular points while a lock is held, in particular interleavings", "anchors": ["src/cache.rs: cache_pair, try_get_cached_dyn, clear, Drop for StatCache", "src/querier.rs: query_stat_erased"]}
{"id": "C58", "title": "An integer stat is worth the formula over everything contributed", "statement": "However additions, multipliers, bounds and joined values are spread over operations and entries, an integer stat evaluates to the sum of the addends times the product (fractions, integers) or one plus the sum (percentages) of the multipliers, rounded and brought between the tightest bounds.", "quantifier": "all integer types, builds, flavours, roundings, scales and trees of operations and joins", "why_tests_cant": "the space of trees of operations is infinite, and overflow behaviour differs per type and build", "anchors": ["src/types/int_ratio.rs", "src/types/int_pct.rs", "src/operations.rs: StatOperation::write_to, into_stat"]}
{"id": "C59", "title": "A float stat is worth the formula over everything contributed, up to rounding", "statement": "However additions, multipliers, bounds and joined values are spread over operations and entries, a float stat evaluates to the sum of the addends times the product (or one plus the sum) of the multipliers, brought between the tightest bounds, each accumulated number being off by at most one unit in the last place per contribution; when the contributions are multiples of one power of two and the multipliers short, the accumulated numbers are exact and the order does not matter.", "quantifier": "all binary float formats, finite contributions that stay clear of overflow and underflow, trees of operations and joins", "why_tests_cant": "rounding errors depend on values and order; no test covers the trees or the formats", "anchors": ["src/types/float.rs", "src/types/int_ratio.rs: StatIntFloatMul", "src/operations.rs: StatOperation::write_to"]}
{"id": "C60", "title": "Printing with Debug shows exactly what is stored, at the right type", "statement": "The Debug output of a StatMap, of the table of defaults, of a StatCache, of a StatValuePair and of the deserializer registry lists each stored entry exactly once with its key, the name of its stat and the value formatted as the stat's own value type; printing never reads a value at another type.", "quantifier": "all histories of operations, all interleavings of queries and panics, all names and formatters", "why_tests_cant": "a misread value prints plausible text; undefined behaviour does not fail an assertion", "anchors": ["src/stat_map.rs: Debug for StatMap", "src/plugin.rs: Debug for GlobalStatDefaults", "src/cache.rs: Debug for StatCache", "src/stat.rs: StatVTable::as_debug, Debug for StatValuePair"]}
{"id": "C61", "title": "Threads sharing a cache exclude each other and never deadlock", "statement": "Taking and dropping the guards of the cache's RwLock being separate steps, no thread is at the map while another changes it, all interleavings give what single-step operations in some order give, every answer is the uncached one, and until all threads have ended one of them can go on, nested queries included.", "quantifier": "all threads, programs of nested queries and clears, and interleavings of taking guards, working under them and dropping them", "why_tests_cant": "interleavings at the granularity of lock operations cannot be enumerated; a deadlock shows only in some of them", "anchors": ["src/cache.rs: cache_pair, try_get_cached_dyn, clear", "src/querier.rs: query_stat_erased"]}
{"id": "C62", "title": "Saved values of the provided types load as they were, and mean what their documents say", "statement": "The derived Serialize and Deserialize of the value types, Fraction, StatOperation and StatCache: a document is accepted exactly if it gives each field once by name or all in order (a variant by name or number) with contents in range; every value made by any history of operations and joins, and every map filled with such values, is loaded as it was saved, in formats with and without names; a saved cache loads empty; and documents giving equal fractions load as stats that evaluate alike.", "quantifier": "all documents, values, histories of operations and joins, integer types, both overflow modes, formats with and without names", "why_tests_cant": "documents are unbounded trees; tests save and load a few defaults", "anchors": ["src/types/int_ratio.rs", "src/types/int_pct.rs", "src/types/float.rs", "src/types/flags.rs", "src/types/singleton.rs", "src/types/prioritized.rs", "src/num_traits.rs: Fraction", "src/operations.rs: StatOperation", "src/cache.rs: StatCache"]}
{"id": "C63", "title": "Division, remainder and integer operands of Fraction are exact or panic", "statement": "Dividing a Fraction by another gives the exact quotient in lowest terms whenever it is representable, the remainder is what is left after a whole number of divisors (smaller than the divisor, with the sign of the dividend), dividing by zero panics, and an integer operand means that integer over one.", "quantifier": "all integer types, all pairs of fractions in range, both overflow modes", "why_tests_cant": "pairs of fractions are too many to enumerate and failures sit at the ends of the range", "anchors": ["src/num_traits.rs:320-357", "src/num_traits.rs: impl_ops", "num_rational::Ratio"]}
{"id": "C64", "title": "A reference obtained from a pair is used only while it is valid", "statement": "In every program that the borrow checker accepts, a reference obtained from StatValuePair::cast, is_then_cast or match_stat! is not used after the pair was borrowed mutably again, moved, consumed by into_result, replaced or dropped.", "quantifier": "all programs over pairs and references with branches and loops, all their executions", "why_tests_cant": "undefined behaviour need not show in a test, and the programs that have it must be thought of first", "anchors": ["src/stat.rs:317-340", "src/lib.rs:220-245"]}
{"id": "C65", "title": "From calls to answers: a query totals everything granted to the entity and its children", "statement": "Whatever calls of insert, insert_base, modify, modify_with, get_mut, iter_mut, remove, remove_all, clear and extend (of new keys) made the StatMaps carried by entities and registered globally, and whatever defaults were registered, a query of a marked entity answers the starting value joined with exactly the qualifying entries of the global maps, of its own maps and of its children's; evaluated, this is the sum of everything added times the product of everything multiplied, rounded once and bounded; with or without a cache and after any past queries. Nothing else in the world matters.", "quantifier": "all programs, all call logs on all maps and on the table of defaults, all arrangements of streams, all entities, qualifiers and stats, all past queries", "why_tests_cant": "the claim spans search, ordering, qualification, joining, defaults, streams and cache for unboundedly many maps and calls", "anchors": ["src/stat_map.rs:154-378", "src/querier.rs:245-289", "src/plugin.rs:54-70", "src/plugin.rs:193-236", "src/cache.rs:56-90", "src/types/int_ratio.rs", "src/types/int_pct.rs", "src/operations.rs: StatOperation::write_to, into_stat"]}
{"id": "C66", "title": "No order of the flags makes a stat map unsafe", "statement": "Ord of a user's flags is safe code, so a StatMap must not trust it: whatever it answers (inconsistent, changing from call to call, panicking inside a search with the panic caught), no call on a StatMap or observer of it is undefined behaviour, iterating a stat gives each of its entries once, and a query joins exactly the qualifying ones. With a lawful order the map is the one the other properties speak of. Not covered, and false: a panic of the order caught in the middle of the sort of extend; and that a value inserted under an unlawful order is found again.", "quantifier": "all programs, flags, orders (as functions of the count of questions asked so far), histories of calls with panics caught or not, every binary search and sort keeping std's contract for arbitrary closures", "why_tests_cant": "an adversarial Ord interacts with the concrete probing sequence of std's search and sort; tests use lawful orders", "anchors": ["src/stat_map.rs:97-99", "src/stat_map.rs:119-132", "src/stat_map.rs:155-163", "src/stat_map.rs:249-287", "src/stat.rs:151-155"]}
{"id": "C67", "title": "Two stats never share a table in safe code; several or merged tables are harmless", "statement": "StatInst's safety invariant rests on the claim that two different Stats having one vtable is impossible in safe Rust, because vtable() returns &'static StatVTable<Self>, and that returning several tables causes logical errors but not unsafety. (a) A type's vtable() returns only tables made for this type. (b) While (a) holds, no call on a StatMap or StatValuePair is undefined behaviour, whatever tables vtable() returns from call to call, and even if the compiler merges tables of stats with the same value type. (a) is false as StatVTable is declared: PhantomData<T> is covariant, so W<fn(&'static u8)> may return the table of W<for<'a> fn(&'a u8)>; it holds for types without proper subtypes and would hold for all if T were invariant.", "quantifier": "all crates (types with subtyping, bodies of vtable(), addresses), all histories of calls with any table in each call, all orders of the flags", "why_tests_cant": "the violating program needs higher-ranked function types in a type parameter, which no test uses; merging depends on the optimizer", "anchors": ["src/stat.rs:16-21", "src/stat.rs:34-96", "src/stat.rs:109-116", "src/stat.rs:173-189", "src/stat.rs:214-219", "src/stat.rs:317-350", "src/stat_map.rs:154-378"]}
{"id": "C68", "title": "No Hash, Eq, Clone or Drop of the flags makes the cache unsafe", "statement": "The cache hashes and compares keys containing a user's flags, whose Hash, Eq, Clone and Drop are safe code and may contradict each other, change from call to call and panic. Whatever they do, in any interleaving of threads sharing the cache: no query of sound streams is undefined behaviour; an entry is only ever found for the entity and the stat it was stored for (only the query may be mistaken); clearing and dropping run each buffer's own drop function, at most once per buffer. With lawful flags the cache is the one the other properties speak of. False, and refuted: that the answers stay right.", "quantifier": "all programs, flags and per-operation behaviours of their functions, all sets of threads and queriers, all interleavings, all panics of values' clone and drop", "why_tests_cant": "an adversarial Hash/Eq interacts with the probing of the hash table and with other threads; tests use derived implementations", "anchors": ["src/cache.rs:10-24", "src/cache.rs:56-99", "src/qualifier.rs:16-60", "src/qualifier.rs:153-166", "src/querier.rs:254-290"]}
{"id": "C69", "title": "Which items derive(Stat) accepts", "statement": "#[derive(Stat)] accepts exactly the unit structs and fieldless enums (with integer literals up to u64 as discriminants) for which some #[stat(...)] attribute declares value = \"a type\", and generates an impl with that value type and the numbering of C40; everything else is refused, with a determined complaint. Other attributes, #[stat] without arguments and bare arguments change nothing. False, and refuted: a declared value is always found (an unknown argument with a value of its own, as unit = \"m\", silently ends the reading of the attribute, and a value after it is reported missing).", "quantifier": "all items: any attributes and arguments, any struct, enum or union, any type grammar, macro built with or without overflow checks", "why_tests_cant": "compile-fail tests try a handful of items, and errors thrown away with let _ leave no trace", "anchors": ["derive/src/lib.rs:36-67", "derive/src/lib.rs:69-98", "derive/src/lib.rs:100-139", "derive/src/lib.rs:175-177"]}
{"id": "C70", "title": "Byte formats: maps come back, nothing else panics", "statement": "In a byte format that does not describe itself (postcard, used by tests/serde.rs) a stat map is read back as it was whatever bytes follow it; every proper beginning of its bytes is refused with an error; different maps have different bytes, none beginning with another's; exactly the byte strings described by the format are accepted; no byte string makes loading panic or undefined when the impls return and every registered stat can be loaded; whatever is loaded holds values of the right types. False, and refuted: every map has one spelling (lengths may be padded), and the announced number of elements is respected (surplus elements of an entry are read as the next entry).", "quantifier": "all programs, flags, registries, maps and histories of calls; all byte strings; any impls of values and flags that round trip", "why_tests_cant": "tests save and load one map of defaults; truncated, padded and miscounted inputs are not tried", "anchors": ["src/stat_map.rs:64-69", "src/stat_map.rs:380-455", "src/stat.rs:39-93", "src/stat.rs:248-275", "src/qualifier.rs:78-84", "tests/serde.rs:194-211"]}
{"id": "C71", "title": "Between two clearings nothing is computed twice", "statement": "While the cache is not cleared, a stat of an entity under a query is computed only if the cache has no answer, and then at most once: not by code asking it again, not by streams asking further questions, not in later programs, not when the code panics in the end (up to the panic); everything computed by code that ends is in the cache. Threads sharing the cache compute each question at most once per thread, and nothing that was there before. False, and refuted: at most once altogether when threads race (the lock is not held while computing), and if a stream replaces the pair by that of another stat.", "quantifier": "all programs, flags, queriers of streams that do not clear the cache and keep the stat, all code, all past histories, all numbers of threads and interleavings", "why_tests_cant": "the value is right either way, so no test of answers notices a recomputation", "anchors": ["src/cache.rs:56-82", "src/querier.rs:245-289"]}
{"id": "C72", "title": "Every stat value round-trips through the byte format, and only what was written is read", "statement": "In the binary format the tests use (postcard), each stat type, rounding ratio, stat operation and cached answer is written as the varints, floats and variant numbers of its fields in declaration order; what was written is read back equal, whatever follows it; no proper beginning of it is accepted; reading never panics; numbers that are equal load as stats that behave the same, and bytes written for one stat type are not accepted as another.", "quantifier": "all integer types, both float formats, all values, operations, following bytes and truncations", "why_tests_cant": "unbounded values and byte strings, quantified over types", "anchors": ["src/types/*.rs: derived Serialize/Deserialize", "src/num_traits.rs:283-291: Fraction", "src/operations.rs:5-42", "src/cache.rs:22-27", "src/querier.rs:23-25", "tests/serde.rs"]}
{"id": "C73", "title": "Panics in calls on a world do not corrupt it", "statement": "If calls on a world panic and the panics are caught, the world stays usable: each resource exists exactly if one of its calls was made, even one that panicked, and holds what those calls made of it; stats registered before a name clash keep their meaning; defaults read, query and drop correctly provided patches follow insertions; no later call has undefined behaviour of its own; a panicking query leaves only correct answers in the cache, so that code still returns what it returns without a cache. A call that panics leaves the world as it was (false, and refuted: names registered before the clash stay).", "quantifier": "all programs, flags, scenes, histories of calls with any of them panicking, and anything user code left behind", "why_tests_cant": "needs a panic at an arbitrary point of an arbitrary history, and then every observation afterwards", "anchors": ["src/plugin.rs:47-118", "src/plugin.rs:148-165", "src/plugin.rs:258-266", "src/cache.rs:56-90"]}
{"id": "C74", "title": "Which of two zeros min and max return changes no result but the sign of a zero", "statement": "Whatever f32::min/max and f64::min/max return for 0.0 and -0.0, and however that differs between calls, every history of operations and joins on a float stat evaluates to the same number (equal by ==, or NaN both times), and integer stats with float multipliers evaluate to exactly the same integer.", "quantifier": "all float formats, all implementations of min and max that keep std's contract (a different one in each call), all histories", "why_tests_cant": "the choice is made by the compiler and the CPU; a test sees one of them", "anchors": ["src/types/float.rs: join, eval, min, max of StatFloat, StatFloatAdditive, StatMult", "src/rounding.rs: TruncateSigned"]}
{"id": "C75", "title": "What more was granted to is worth no less", "statement": "If operands are replaced by better ones, gains put in and losses left out, anywhere in the operations, joined values and maps that make up a stat, then the stat is worth no less, in every rounding mode, as long as arithmetic does not wrap around, multipliers are not negative and, where multipliers are improved, what they multiply is not negative. An entity whose maps and defaults are improved in this way answers no less.", "quantifier": "all integer, fraction and float value types except StatIntPercent, all rounding modes, trees of operations and joins, games", "why_tests_cant": "a violation needs a rounding mode, a saturation or an infinity to cross over at one particular value; tests compare single results", "anchors": ["src/types/int_ratio.rs", "src/types/int_pct.rs", "src/types/float.rs", "src/rounding.rs", "src/querier.rs: query_eval"]}
{"id": "C76", "title": "Operations are ordered by kind and operand, and what compares equal behaves alike", "statement": "The derived PartialEq and PartialOrd of StatOperation keep std's contract whenever the operands do, order operations of different kinds as they are declared (Add, Mul, Or, Not, Min, Max, Base) and those of one kind by their operands. Two values of a stat type that compare equal stay interchangeable: after equal operations and joins with equal values both are worth the same or both panic, up to the sign of a float zero.", "quantifier": "all operations of all value types, all operands including NaN and zeros of either sign, all sequences of operations and joins", "why_tests_cant": "equality is hardly tested where it is not identity: zeros of either sign, fractions not in lowest terms, NaN", "anchors": ["src/operations.rs: derive of StatOperation", "src/types/int_ratio.rs", "src/types/int_pct.rs", "src/types/float.rs", "src/num_traits.rs: derive of Fraction"]}
{"id": "C77", "title": "Saving and loading between calls leaves no trace", "statement": "However a map is saved, dropped and loaded between the calls made on it, as a document or as bytes, in processes with whatever registries, as long as what it holds can be saved and its names lead back where it is loaded: every loading succeeds, later calls return exactly if they would have, and in the end the map is the one the calls alone make. So a game answers every query from its logs of calls, as if it had never been saved.", "quantifier": "all programs, calls, interleavings with saving and loading in both formats, registries, games and queries", "why_tests_cant": "tests save once, at the end, and load into the same registry; a fault may only show in calls made on a loaded map", "anchors": ["src/stat_map.rs: Serialize and Deserialize of StatMap", "src/stat.rs: serialization of StatInst", "src/plugin.rs: StatDeserializers", "src/querier.rs: query"]}
{"id": "C78", "title": "A temporary modifier leaves no trace", "statement": "If a modifier is granted under a key that is not in use, by insert, insert_base, modify or modify_with, and removed again later, and no other call makes an entry under that key in between, then in the end the map is exactly what it would have been without it, whatever other calls were made. While it lasts every other key reads as without it, and unless its own key is touched, removing it hands back exactly what was granted. A game in which any number of modifiers came and went answers every query as if there had been none.", "quantifier": "all programs, maps, keys, grants, calls in between, numbers and nestings of temporary modifiers, games and queries", "why_tests_cant": "a leftover shows only in a later call or query under a key that the temporary modifier displaced; tests check the map right after the removal", "anchors": ["src/stat_map.rs:166-337 (insert, insert_base, remove, modify, modify_with)", "src/querier.rs: query"]}
{"id": "C79", "title": "It does not matter where a modifier is granted", "statement": "Two games in which an entity starts from the same value and has the same entries of a stat for a query, on whichever of its own maps, its relations', its children's or the global ones and under whichever qualifiers, answer the query alike: both return the same value and the same result, or neither returns. For arithmetic that may panic, they agree if both return.", "quantifier": "all games, queries, distributions of entries over maps and qualifiers; all value types for C79_moved and C79_agree, the provided types by name", "why_tests_cant": "tests put modifiers on one map in one order; the order in which maps are visited shows only with three entries and values at the edge", "anchors": ["src/querier.rs: query", "src/stat_map.rs: stream_stat", "src/types/mod.rs", "README.md: no ordering is needed"]}
{"id": "C80", "title": "Stats that follow from other stats", "statement": "With rules registered as global relations that compute operations on a stat from the answers to any other questions, in any order with global maps, a query returns exactly the starting value joined with the selected entries of all maps and changed by the operations the rules about that stat come up with, each in its turn; the rules see the same answers as the program would. If the rules can be ranked so that each asks only about lower stats, every query comes to an end. Cached or not, whatever was asked before.", "quantifier": "all games, rules with arbitrary code, queries, histories of queries", "why_tests_cant": "tests have one rule over one other stat; nested rules, rules between maps and the cache in between are not compared with what they should amount to", "anchors": ["src/plugin.rs:76-83 register_stat_relation", "src/querier.rs: query", "src/stat.rs:332-340 is_then_cast", "README.md: relations"]}
{"id": "C81", "title": "More of a stat is no loss to the stats that follow it", "statement": "Two games with the same rules, in one of which every entity was granted at least as much of the stats looked at: if each rule about them makes a stat follow a lower one and comes up with no less for more of it, no query about them returns less there. Not so for rules that take away.", "quantifier": "all games, rules over any number of levels, queries, histories of queries", "why_tests_cant": "no test compares two worlds, or has rules over more than one level", "anchors": ["src/plugin.rs:76-83 register_stat_relation", "src/querier.rs: query_eval", "src/types/int.rs", "README.md: relations"]}
{"id": "C82", "title": "The order in which maps and rules are registered does not matter", "statement": "Two games in which stats start from the same values and the entities have the same maps and rules, in any order: if the value types need no order, and the rules set no base and ask only about lower stats, every program that queries stats gets the same result in both or in neither; for value types that may panic, no program gets two different results. Not so for rules that set a base.", "quantifier": "all games, rules with arbitrary code, programs that ask any number of queries, histories of queries", "why_tests_cant": "tests register one relation at most, so no two orders are compared", "anchors": ["src/plugin.rs:76-83 register_stat_relation", "src/querier.rs: query", "src/stream.rs: StatStream", "src/types"]}
{"id": "C83", "title": "Maps and rules that have nothing to do with a question change nothing", "statement": "For any set of questions (stats of entities for qualifiers) that is closed under what rules ask to answer them: two games with the same starting values, the same entries for these questions and the same rules about these stats let every program that asks them end alike, in the same result or the same panic, whatever other maps and rules there are, even ones that panic or never end, and whatever was asked before.", "quantifier": "all games, rules with arbitrary code, programs that ask any number of queries, histories of queries", "why_tests_cant": "tests never add unrelated entries or rules to compare answers before and after", "anchors": ["src/plugin.rs:76-83 register_stat_relation", "src/querier.rs: query", "src/stat.rs:332-340 is_then_cast", "src/stat_map.rs: StatStream for StatMap"]}
{"id": "C84", "title": "Queries inside queries go no deeper than the chain of rules", "statement": "When stats can be ranked so that every rule asks only about stats of lower rank than its own, code that asks about stats of rank below n comes to its end with at most n queries inside each other, with or without a cache and whatever was asked before, and gives the same result when it is allowed any more.", "quantifier": "all games, rules with arbitrary code, rankings, programs, histories of queries", "why_tests_cant": "tests do not measure how deep the recursion goes", "anchors": ["src/querier.rs: query", "src/plugin.rs:76-83 register_stat_relation", "src/stat.rs:332-340 is_then_cast"]}
{"id": "C85", "title": "Relation queries in a game: the global maps and rules, and what ties two entities", "statement": "The value of a relation query between two stat entities is the starting value of the stat, joined with the entries of the global maps and changed by what the global rules come up with (which see the placeholder instead of an entity), and then by what the relation components come up with that both entities have, given the map of the one and of the other, in this order; nothing else contributes, with or without a cache and whatever was asked before. Unless both entities are stat entities there is no answer.", "quantifier": "all games, rules and relation components with arbitrary code that may ask further queries, histories of queries", "why_tests_cant": "there are no tests that combine relation components with global relations or nested queries", "anchors": ["src/querier.rs:291-315 query_relation_erased", "src/stream.rs:158-235 RelationStream, CxComponentStream::relation", "src/plugin.rs:76-83 register_stat_relation"]}
{"id": "C86", "title": "Registered bounds hold for every answer", "statement": "A minimum registered for a stat, and not replaced by a later default, is no greater than any evaluated answer for that stat, whatever maps, rules, children and relation components contribute, as long as rules do not set the base; a registered maximum is no less than any such answer unless a greater minimum was contributed. For stat queries and relation queries, and every value type whose bounds accumulate and hold (the integer types, C10).", "quantifier": "all games, rules with arbitrary code that may ask further queries, histories of queries", "why_tests_cant": "tests register bounds but check them only with contributions that stay within", "anchors": ["src/plugin.rs: register_stat_min, register_stat_max", "src/querier.rs:245-315", "src/types: eval with bounds"]}
{"id": "C87", "title": "The answers are the one solution of the rules", "statement": "The game and its rules are equations between answers: the value of a stat of an entity is what the maps and rules that contribute make of the starting value when the rules are given the same answers. When rules ask only questions of lower rank than the one they help to answer (by stat, entity and qualifier), these equations have exactly one solution, and every program that asks ends as if it were handed the answers of this solution, in the same result or the same panic, with or without a cache and whatever was asked before.", "quantifier": "all games, rules with arbitrary code, rankings, programs, histories of queries", "why_tests_cant": "tests compare single answers with expected numbers", "anchors": ["src/querier.rs: query", "src/plugin.rs:76-83 register_stat_relation", "src/stat.rs:332-340 is_then_cast"]}
