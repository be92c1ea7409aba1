#!/usr/bin/env python3
"""Writes ../properties.jsonl. One entry per property: id, title, statement, quantifier, why_tests_cant, anchors."""
import json, os
P = []
def p(id, title, statement, quantifier, why, anchors):
    P.append(dict(id=id, title=title, statement=statement, quantifier=quantifier, why_tests_cant=why, anchors=anchors))

p("C01", "Aggregate queries match exactly the applicable modifiers",
  "A modifier with qualifier (any_of, all_of) applies to QualifierQuery::Aggregate(s) exactly when every flag of all_of is in s and any_of is empty or shares a flag with s.",
  "all qualifiers, all queried flag sets, every flag type whose & | == are bit-set operations",
  "the flag space is exponential (and generic in the flag type); tests sample a handful of flags",
  ["src/qualifier.rs: Qualifier::qualifies_as, QualifierFlag blanket impl", "README.md: Modifier and Query"])
p("C02", "Exact queries deny more general modifiers and never double count",
  "A modifier applies to QualifierQuery::Exact{any_of, all_of} exactly when its all_of equals the queried all_of and its any_of contains the queried any_of. Hence an Exact query for a non-empty all_of never matches an unqualified modifier, and no modifier matches both Exact{_, all_of: A} and Aggregate(B) unless A is contained in B (the '50% of magic damage added to physical damage' recipe counts nothing twice).",
  "all qualifiers and all pairs of exact/aggregate queries",
  "requires a statement about every modifier that could be stored",
  ["src/qualifier.rs: Qualifier::qualifies_as, QualifierQuery::Exact", "README.md: Exact Query"])
p("C03", "Aggregate matching is monotone and the builders narrow or widen as documented",
  "Adding flags to an Aggregate query never loses a matching modifier; Qualifier::none() matches every Aggregate query and only it matches Aggregate(none); and_all_of never makes a modifier match more Aggregate queries; and_any_of on a non-empty any_of never makes it match fewer; builder order does not matter.",
  "all qualifiers, all queries, all builder chains",
  "universally quantified over pairs of queries",
  ["src/qualifier.rs: Qualifier::{none,any_of,all_of,and_any_of,and_all_of}, QualifierQuery::{none,qualifies_none,qualify}"])
p("C04", "StatMap behaves as a finite map from (qualifier, stat) to value",
  "After any history of new/insert/insert_base/modify/modify_with/get_mut/remove/remove_all/clear/iter_mut on a StatMap, get, get_evaled, remove, len and is_empty answer exactly as a finite map keyed by (qualifier, stat) that underwent the same history; keys not named by an operation are untouched.",
  "all finite operation histories, any number of stats, qualifiers and values, any lawful Ord on flags, any binary search meeting the std contract",
  "unbounded histories and map sizes; the failure modes of a sorted vector are positional",
  ["src/stat_map.rs: StatMap::{insert,insert_base,get,get_mut,get_evaled,remove,remove_all,modify,modify_with,clear,len,is_empty,binary_search}"])
p("C05", "A StatMap query joins exactly the qualifying entries of the queried stat",
  "query_stat(q, s) is the default value of s joined with the value of every entry of stat s whose qualifier qualifies as q, each exactly once, and with no other entry; eval_stat is its evaluation.",
  "all maps reachable by any history, all queries and stats",
  "depends on partition_point slicing over arbitrary contents",
  ["src/stat_map.rs: StatMap::{query_stat,eval_stat,slice}, StatStream for StatMap"])
p("C06", "iter, iter_mut and remove_all touch exactly one stat",
  "iter(s) yields each (qualifier, value) stored for s once in ascending qualifier order and nothing else; iter_mut changes only those values; remove_all(s) removes exactly those entries and keeps all others.",
  "all reachable maps, all stats",
  "unbounded contents and neighbouring stats",
  ["src/stat_map.rs: StatMap::{iter,iter_mut,remove_all,slice,slice_mut}"])
p("C07", "Maps built in bulk behave as maps",
  "from_iter and extend leave a map in which every supplied entry is found by queries and, as for insert, each (qualifier, stat) has one value: after remove the key is absent.",
  "all input sequences including repeated keys",
  "the repeated-key behaviour is unbounded and depends on position inside the vector",
  ["src/stat_map.rs: FromIterator, Extend, StatMap::remove"])
p("C08", "Stored values do not depend on the order of unordered operations",
  "For integer stats on wrapping arithmetic (release primitives and Wrapping<T>), and for flags, existence and once stats, applying any list of add/mul/min/max/or/not operations, or joining any list of values, gives the same stat value for every permutation of the list.",
  "all lists of operations of any length, all permutations, all integer widths",
  "factorially many orders",
  ["src/operations.rs: StatOperation::write_to", "src/types/int_ratio.rs: StatInt", "src/types/int_pct.rs: StatIntPercentAdditive", "src/types/flags.rs", "src/types/singleton.rs", "README.md: Unordered Operations"])
p("C09", "No ordering is ever needed, for every provided value type",
  "README: unordered operations ensure no explicit ordering is ever needed when querying for stats. For every value type in types::* and every numeric parameter, joining contributions in any order evaluates to the same result.",
  "all provided value types and parameters (Saturating integers, f32/f64, overflow-checked builds, Prioritized), all permutations",
  "needs a search over value triples and orders per type",
  ["README.md: Unordered Operations", "src/types/prioritized.rs", "src/types/float.rs", "src/num_traits.rs: Int for Saturating"])
p("C10", "Evaluation respects the registered bounds",
  "For every integer stat type, a successful eval is at least min, and at most max whenever min <= max; when min > max the result is exactly min. min() operations only raise the lower bound and max() operations only lower the upper bound, whatever the order.",
  "all addends, multipliers, bounds, integer types, rounding modes, overflow modes",
  "arithmetic over full machine ranges",
  ["src/types/int_ratio.rs: eval,min,max", "src/types/int_pct.rs: eval,min,max", "src/types/float.rs: eval"])
p("C11", "from_base followed by eval returns the base",
  "Inserting a stat in evaluated form and evaluating it back returns the same number: from_base(x).eval() == x.",
  "all bases of all numeric types and rounding modes",
  "full machine ranges; failures sit at the edges",
  ["src/types/*.rs: from_base, eval", "src/stat_map.rs: insert_base, get_evaled"])
p("C12", "The default value is neutral and a modifier may be split into separate entries",
  "Joining the default value on either side changes nothing, and joining a fresh value carrying one operation equals applying the operation in place: join(v, op.into_stat()) == op.write_to(v) for add, mul, min, max, or, not.",
  "all values and operations of StatInt, StatIntFraction, StatIntPercentAdditive, StatIntFloatMul, StatFloat, StatFloatAdditive, StatMult, StatFlags, StatExists, StatOnce",
  "universally quantified algebraic law",
  ["src/operations.rs: StatOperation::{write_to,into_stat}, StatValue::join"])
p("C13", "StatIntPercent aggregates like the other integer stats",
  "A StatIntPercent entry inserted with insert_base(b) queries back to b, joining default changes nothing, and multipliers from separate entries multiply.",
  "all bases and multipliers",
  "the law is universal; the provided tests never evaluate a StatIntPercent",
  ["src/types/int_pct.rs: StatIntPercent::{default,join,mul,eval,from_base}"])
p("C14", "Prioritized evaluates to the occurrence with the highest priority",
  "After joining any sequence of prioritized values, eval is the value of the first (LAST = false) or last (LAST = true) occurrence with the highest priority.",
  "all sequences of contributions and priorities",
  "unbounded sequences",
  ["src/types/prioritized.rs: Prioritized::join"])
p("C15", "StatOnce counts contributions",
  "After any mix of or/set/join contributions a StatOnce is NotFound with none, Found(x) with exactly one contribution x and FoundMultiple with two or more, regardless of order and grouping; try_set never produces FoundMultiple and reports whether it stored.",
  "all contribution sequences and groupings into joins",
  "unbounded sequences and join trees",
  ["src/types/singleton.rs: StatOnce"])
p("C16", "StatFlags: exclusion wins over inclusion",
  "A flag is in the evaluated StatFlags exactly when some contribution added it with or/from_base and no contribution excluded it with not, whatever the order.",
  "all flags, all contribution sequences, flag types that are bit sets",
  "unbounded sequences",
  ["src/types/flags.rs", "src/num_traits.rs: Flags::exclude"])
p("C17", "Boolean stats: or sets the value",
  "Applying StatOperation::Or(b) (or joining b) to a bool or StatExists stat makes it evaluate to the disjunction of everything contributed.",
  "all contribution sequences",
  "universal over sequences",
  ["src/operations.rs: StatValue for bool", "src/types/singleton.rs: StatExists"])
p("C18", "Percentage stats evaluate to the documented formula",
  "StatIntPercentAdditive evaluates to round(addend * (SCALE + sum of multipliers) / SCALE) clamped to its bounds whenever addend * (SCALE + mult) fits the integer type; in overflow-checked builds it never returns anything else.",
  "all addends, multipliers, scales, rounding modes, integer types",
  "full machine ranges",
  ["src/types/int_pct.rs: StatIntPercentAdditive::eval", "src/num_traits.rs: Int::{from_i64,build_fraction,from_fraction}"])
p("C19", "Fractions are exact or fail loudly",
  "In overflow-checked builds every Fraction operation (new, +, -, *, floor, ceil, round, trunc) either returns the exact rational result in lowest terms with positive denominator or panics; in release builds it returns the same whenever the checked build would not panic.",
  "all numerators, denominators and integer types",
  "full machine ranges",
  ["src/num_traits.rs: Fraction, impl_ops, Float for Fraction", "num-rational 0.4 Ratio (dependency)"])
p("C20", "Rounding modes round as documented",
  "Truncate rounds toward zero, Floor to the largest integer not above, Ceil to the smallest integer not below, Round to the nearest (ties away from zero), TruncateSigned like Truncate but positive to at least 1 and negative to at most -1.",
  "all fractions and all finite f32/f64",
  "full ranges and tie cases",
  ["src/rounding.rs", "src/num_traits.rs: Float"])
p("C21", "Int::from_i64 is total",
  "from_i64 returns the nearest representable value for every integer type that implements Int.",
  "all i64 inputs, all twelve integer types and their Wrapping/Saturating newtypes",
  "tests only use i32; the failure is per type",
  ["src/num_traits.rs: Int::from_i64 (impl_int, impl_int_newtype)"])
p("C22", "StatMap never confuses value types",
  "After any history of StatMap operations mixing stats of different value types, every access reads a value of the type it was written with (no undefined behaviour).",
  "all histories over any family of stat types",
  "undefined behaviour is not observable by tests",
  ["src/stat_map.rs", "src/buffer.rs", "src/stat.rs: StatInst safety invariant"])
p("C23", "Global defaults: insert, patch and lookup agree",
  "GlobalStatDefaults::get returns the last inserted value with all later patches applied, and the type default if never registered; register_stat_min/max on an unregistered stat yields the type default with that bound.",
  "all histories of insert/patch/get over any stats",
  "histories unbounded; the patch path reads memory of another type",
  ["src/plugin.rs: GlobalStatDefaults::{insert,patch,get,get_dyn}, StatExtension::{register_stat_default,register_stat_min,register_stat_max}"])
p("C24", "Stored values are released exactly once",
  "Every value moved into a StatMap, StatCache or GlobalStatDefaults is, after any history ending in drop, either returned to the caller once or dropped once; never twice, never leaked.",
  "all histories",
  "leaks and double frees are invisible to assertions",
  ["src/stat_map.rs: insert, remove, Drop for StatMapEntry", "src/cache.rs: cache_pair, clear, Drop", "src/plugin.rs: insert, get_dyn, Drop", "src/querier.rs: unwrap_or((stat.vtable.default)())"])
p("C25", "Accepted value types fit the erased buffer",
  "Every type accepted at run time for Stat::Value has alignment dividing 8 and size at most 24, so each access through the 24-byte buffer is in bounds and aligned; every other type is rejected by a panic before any access.",
  "all types by size and alignment, all buffer addresses",
  "ranges over all user types",
  ["src/buffer.rs: validate, Buffer::{from,as_ref,as_mut,into,read_move}"])
p("C26", "Every provided value type can be stored for every numeric parameter",
  "Each of StatInt, StatFloat, StatFloatAdditive, StatMult, StatIntPercent, StatIntPercentAdditive, StatIntFraction, StatIntFloatMul can be used as Stat::Value for every Int/Float parameter.",
  "all provided type constructors and parameters",
  "tests use only 32-bit parameters",
  ["src/types/*.rs repr(C, align(8)) structs", "src/buffer.rs: validate"])
p("C27", "Caching is transparent for a fixed world and querier",
  "With a StatCache resource, any sequence of queries through one joined querier on an unchanged world returns exactly what the same queries return without a cache, including nested queries issued by streams.",
  "all worlds, all stream programs, all query sequences, all nesting",
  "unbounded nested histories",
  ["src/querier.rs: query_stat_erased", "src/cache.rs: StatCache::{try_get_cached_dyn,cache_pair,clear}"])
p("C28", "Caching is transparent under concurrency",
  "Any number of threads querying and clearing one shared cache in any interleaving of their lock-protected steps each obtain the uncached result.",
  "all schedules, any number of threads",
  "exponentially many interleavings",
  ["src/cache.rs: RwLock-protected map", "src/querier.rs: query_stat_erased"])
p("C29", "Clearing the cache restores freshness; without clearing results are stale",
  "After clear_cache every query answers for the current world whatever happened before; an entry stays as cached until cleared even if the world changed.",
  "all histories of mutations, queries and clears",
  "unbounded histories",
  ["src/querier.rs: clear_cache", "src/cache.rs: clear", "src/lib.rs doc: StatCache"])
p("C30", "Cached answers are per querier",
  "A query through a joined querier never returns a value computed by a querier with different streams.",
  "all pairs of joined queriers sharing the cache resource",
  "a statement about all pairs of queriers",
  ["src/cache.rs: CachedEntry", "src/querier.rs: JoinedQuerier"])
p("C31", "Only marked entities are queryable",
  "query_stat, query_eval, query_relation and query_relation_eval return None for entities not marked StatEntity, even if a cached value exists, and write nothing to the cache; for marked entities they return Some.",
  "all worlds, queries and cache states",
  "all states",
  ["src/querier.rs: query_stat_erased, query_relation_erased"])
p("C32", "A query collects each source exactly once",
  "For a marked entity the result is the global (or type) default, then every global relation, then component streams and relation streams on the entity itself, then children streams on each direct child having the component, each exactly once and nothing from other entities; adding streams appends contributions.",
  "all worlds and all chains of with_component/with_children/with_relation",
  "all worlds and querier shapes",
  ["src/querier.rs: query_stat_erased, with_*", "src/stream.rs: QueryStream for (), (A,B), CxComponentStream", "src/plugin.rs: GlobalStatRelations"])
p("C33", "The order in which streams and children are attached does not matter",
  "If every stream only joins contributions into a value type with commutative and associative join, then permuting relations, with_* calls or children does not change the query result.",
  "all permutations of streams and children",
  "factorially many orders",
  ["src/querier.rs: with_*", "src/stream.rs"])
p("C34", "Queries terminate exactly when nested queries are well founded",
  "If nested queries issued by streams decrease some rank then every query terminates; a stream that re-issues its own query on the same entity never terminates.",
  "all worlds and stream programs",
  "non-termination cannot be tested",
  ["src/querier.rs: Querier passed to streams"])
p("C35", "Relation queries",
  "query_relation(from, to) applies each relation stream once with (from, to) in that order when both entities have the component, skips it otherwise, starts from defaults and global relations, and neither reads nor writes a cached result of its own.",
  "all worlds and queries",
  "all worlds",
  ["src/querier.rs: query_relation_erased", "src/stream.rs: QueryRelationStream"])
p("C36", "has_attribute is the disjunction over sources and is limited to stat entities",
  "has_attribute(e, a) is true exactly when some component or relation stream on e, or children stream on a direct child, reports the attribute, and e is a StatEntity.",
  "all worlds, attributes",
  "all worlds",
  ["src/querier.rs: has_attribute_erased", "src/stream.rs: has_attribute"])
p("C37", "Stat registration",
  "After register::<T> succeeds every value of T resolves by name to itself and earlier names are unchanged; registering again is harmless; it panics exactly when some name is already bound to a different stat; register_replace binds every name of T to T.",
  "all registration histories",
  "unbounded histories and name clashes",
  ["src/plugin.rs: StatDeserializers::{register,register_replace,get}"])
p("C38", "Saving and loading a StatMap is the identity",
  "Deserializing what was serialized, in a world where all contained stats are registered, yields a map with the same content that answers every query the same.",
  "all maps, all registered stat families, later processes with other static addresses",
  "unbounded maps; the address order differs between builds",
  ["src/stat_map.rs: Serialize/Deserialize for StatMapEntry, derive on StatMap", "src/stat.rs: Serialize/Deserialize for StatInst"])
p("C39", "Malformed input is rejected",
  "Deserializing an entry that has fewer than three elements, an unregistered stat name or an undecodable qualifier or value is an error and never yields a map.",
  "all serialized documents",
  "all inputs",
  ["src/stat_map.rs: TupleSeed::visit_seq", "src/stat.rs: Deserialize for StatInst"])
p("C40", "Derived Stat indices identify variants",
  "For every enum accepted by the compiler, derive(Stat) gives distinct variants distinct as_index, and from_index(as_index(v)) == v.",
  "all fieldless enums with any explicit discriminants",
  "all enum shapes",
  ["derive/src/lib.rs: indices, from_index, as_index"])
p("C41", "StatInst comparison is a lawful total order consistent with equality and hashing",
  "Stat instances are totally ordered; cmp is Equal exactly when ==, which holds exactly when index and vtable coincide; equal instances hash equally.",
  "all stat instances",
  "order laws are universal",
  ["src/stat.rs: PartialEq, Ord, Hash for StatInst"])
p("C42", "match_stat runs exactly the first matching arm",
  "match_stat! executes the body of the first arm whose stat (or stat type) is the queried one, with the value viewed at that stat's value type, and no other arm.",
  "all arm lists and stats",
  "all arm lists",
  ["src/lib.rs: match_stat!", "src/stat.rs: StatValuePair::{cast,is_then_cast,is}"])
p("C43", "Queries through safe stream code never confuse value types",
  "Whatever safe code a stream runs on the &mut StatValuePair it is given, query_stat returns a value of the queried stat's type.",
  "all stream programs",
  "undefined behaviour is not testable",
  ["src/querier.rs: query_stat (x.into())", "src/stat.rs: StatValuePair::new"])
p("C44", "Evaluated queries are evaluations of component queries",
  "query_eval and query_relation_eval return Some exactly when the component-form query does, and then its eval; NoopQuerier always answers None/false.",
  "all worlds and queries",
  "all worlds",
  ["src/querier.rs: Querier::{query_eval,query_relation_eval}, NoopQuerier"])
p("C45", "Float multiplied integer stats",
  "StatIntFloatMul stays within its bounds for every multiplier including NaN and infinities, and from_base(x).eval() == x for every integer x.",
  "all integers, all f32/f64 multipliers",
  "2^32 x 2^32 inputs",
  ["src/types/int_ratio.rs: StatIntFloatMul"])
p("C46", "Float stats stay within bounds and ignore NaN bounds",
  "StatFloat, StatFloatAdditive and StatMult evaluate within [min, max] (when ordered) for all non-NaN bounds, and are never NaN.",
  "all f32/f64 values including NaN and infinities",
  "2^128 inputs",
  ["src/types/float.rs", "src/num_traits.rs: Float for f32/f64"])

p("C47", "A StatMap used as a stream equals querying it directly",
  "A StatMap registered as a global relation (or any StatStream position) contributes to a query exactly the entries StatMap::query_stat joins.",
  "all maps and queries", "all maps",
  ["src/stat_map.rs: StatStream for StatMap", "src/plugin.rs: register_stat_relation"])
p("C48", "Cloning a StatMap",
  "A clone answers every operation like the original and later operations on either do not affect the other; no value is shared.",
  "all maps and histories", "all histories",
  ["src/stat_map.rs: Clone for StatMapEntry"])
p("C49", "Fraction multiplied integer stats evaluate to the documented formula",
  "StatIntFraction evaluates to round(addend * multiplier) clamped to its bounds whenever the reduced product is representable; in overflow-checked builds it never returns anything else.",
  "all addends, fractions, rounding modes, integer types",
  "full machine ranges",
  ["src/types/int_ratio.rs: StatIntFraction::eval", "src/num_traits.rs: Int::{into_fraction,from_fraction}"])
p("C50", "Stats without serialization support never reach a document",
  "A stat whose vtable was made by StatVTable::no_serialize is never written and never loaded: saving or loading an entry of it panics.",
  "all maps and documents", "all contents and documents",
  ["src/stat.rs: StatVTable::no_serialize", "src/stat_map.rs: Serialize/Deserialize for StatMapEntry"])
p("C51", "The saved document depends only on the content of the map",
  "Two histories of a StatMap that lead to the same answers of get lead to the same vector and the same document.",
  "all pairs of histories", "pairs of unbounded histories",
  ["src/stat_map.rs: StatMap, Serialize for StatMapEntry"])
p("C52", "World registration is per resource and reaches queries",
  "After any history of StatExtension calls each resource holds exactly what its own calls made of it (created on first use, relations in registration order), independently of the other calls; a query nothing else contributes to returns the registered default, or the type's default, with the registered relations applied in order.",
  "all histories of extension calls, cache insertions and queries", "unbounded interleavings of calls",
  ["src/plugin.rs: StatExtension for World/App", "src/querier.rs: StatQuery"])
p("C53", "Clearing the cache of a world",
  "World::clear_stat_cache panics exactly if no StatCache resource was ever added and otherwise empties the cache and touches nothing else; StatQuery::clear_cache never panics.",
  "all histories", "all histories",
  ["src/plugin.rs: clear_stat_cache", "src/querier.rs: StatQuery::clear_cache", "src/cache.rs: clear, Drop"])
p("C54", "Queries reflect what is registered when they run",
  "A query always returns what it would return without a cache against the defaults, relations and components present when it runs.",
  "all histories of registration, clearing and querying", "unbounded histories",
  ["src/plugin.rs: StatExtension", "src/cache.rs: cache_pair, try_get_cached_dyn", "src/querier.rs: query_stat_erased"])
p("C55", "Tests and casts single out exactly one stat",
  "StatValuePair::is and Stat::is hold exactly for the same stat type and index. is_then_cast returns the stored value exactly for the pair's own stat, cast and into_result exactly for its stat type, and the casts on unerased values agree with them.",
  "all stat types, indices and values", "unbounded set of stat types and indices, value types shared by several stats",
  ["src/stat.rs: StatValuePair::is, cast, is_then_cast, into_result", "src/stat.rs: Stat::is, StatExt::cast, StatExt::is_then_cast"])
p("C56", "A caught panic leaves a stat map usable",
  "When a StatMap method panics and the panic is caught, the map has the same keys as before, only values that the method handed to user code for writing may differ, and everything proved of maps still holds of it; no later operation is undefined.",
  "all histories of map calls, all points of panic, all values left behind by the panicking code", "panics inside user callbacks at every point of every method; memory unsafety need not show up in a run",
  ["src/stat_map.rs: Extend for StatMap (119-132)", "src/stat_map.rs: insert, get_mut, modify, modify_with, iter_mut, remove_all, clear"])
p("C57", "Panics during queries neither corrupt nor disable the cache",
  "A panic in a stream, clone or drop during a cached query leaves no wrong entry: every query that returns gives the uncached answer, no cached value is dropped twice, and later queries still work.",
  "all queriers, threads, interleavings and sets of values whose clone or drop panics", "requires panics at particular points while a lock is held, in particular interleavings",
  ["src/cache.rs: cache_pair, try_get_cached_dyn, clear, Drop for StatCache", "src/querier.rs: query_stat_erased"])
p("C58", "An integer stat is worth the formula over everything contributed",
  "However additions, multipliers, bounds and joined values are spread over operations and entries, an integer stat evaluates to the sum of the addends times the product (fractions, integers) or one plus the sum (percentages) of the multipliers, rounded and brought between the tightest bounds.",
  "all integer types, builds, flavours, roundings, scales and trees of operations and joins", "the space of trees of operations is infinite, and overflow behaviour differs per type and build",
  ["src/types/int_ratio.rs", "src/types/int_pct.rs", "src/operations.rs: StatOperation::write_to, into_stat"])
p("C59", "A float stat is worth the formula over everything contributed, up to rounding",
  "However additions, multipliers, bounds and joined values are spread over operations and entries, a float stat evaluates to the sum of the addends times the product (or one plus the sum) of the multipliers, brought between the tightest bounds, each accumulated number being off by at most one unit in the last place per contribution; when the contributions are multiples of one power of two and the multipliers short, the accumulated numbers are exact and the order does not matter.",
  "all binary float formats, finite contributions that stay clear of overflow and underflow, trees of operations and joins", "rounding errors depend on values and order; no test covers the trees or the formats",
  ["src/types/float.rs", "src/types/int_ratio.rs: StatIntFloatMul", "src/operations.rs: StatOperation::write_to"])
p("C60", "Printing with Debug shows exactly what is stored, at the right type",
  "The Debug output of a StatMap, of the table of defaults, of a StatCache, of a StatValuePair and of the deserializer registry lists each stored entry exactly once with its key, the name of its stat and the value formatted as the stat's own value type; printing never reads a value at another type.",
  "all histories of operations, all interleavings of queries and panics, all names and formatters", "a misread value prints plausible text; undefined behaviour does not fail an assertion",
  ["src/stat_map.rs: Debug for StatMap", "src/plugin.rs: Debug for GlobalStatDefaults", "src/cache.rs: Debug for StatCache", "src/stat.rs: StatVTable::as_debug, Debug for StatValuePair"])
p("C61", "Threads sharing a cache exclude each other and never deadlock",
  "Taking and dropping the guards of the cache's RwLock being separate steps, no thread is at the map while another changes it, all interleavings give what single-step operations in some order give, every answer is the uncached one, and until all threads have ended one of them can go on, nested queries included.",
  "all threads, programs of nested queries and clears, and interleavings of taking guards, working under them and dropping them", "interleavings at the granularity of lock operations cannot be enumerated; a deadlock shows only in some of them",
  ["src/cache.rs: cache_pair, try_get_cached_dyn, clear", "src/querier.rs: query_stat_erased"])
p("C62", "Saved values of the provided types load as they were, and mean what their documents say",
  "The derived Serialize and Deserialize of the value types, Fraction, StatOperation and StatCache: a document is accepted exactly if it gives each field once by name or all in order (a variant by name or number) with contents in range; every value made by any history of operations and joins, and every map filled with such values, is loaded as it was saved, in formats with and without names; a saved cache loads empty; and documents giving equal fractions load as stats that evaluate alike.",
  "all documents, values, histories of operations and joins, integer types, both overflow modes, formats with and without names", "documents are unbounded trees; tests save and load a few defaults",
  ["src/types/int_ratio.rs", "src/types/int_pct.rs", "src/types/float.rs", "src/types/flags.rs", "src/types/singleton.rs", "src/types/prioritized.rs", "src/num_traits.rs: Fraction", "src/operations.rs: StatOperation", "src/cache.rs: StatCache"])
p("C63", "Division, remainder and integer operands of Fraction are exact or panic",
  "Dividing a Fraction by another gives the exact quotient in lowest terms whenever it is representable, the remainder is what is left after a whole number of divisors (smaller than the divisor, with the sign of the dividend), dividing by zero panics, and an integer operand means that integer over one.",
  "all integer types, all pairs of fractions in range, both overflow modes", "pairs of fractions are too many to enumerate and failures sit at the ends of the range",
  ["src/num_traits.rs:320-357", "src/num_traits.rs: impl_ops", "num_rational::Ratio"])
p("C64", "A reference obtained from a pair is used only while it is valid",
  "In every program that the borrow checker accepts, a reference obtained from StatValuePair::cast, is_then_cast or match_stat! is not used after the pair was borrowed mutably again, moved, consumed by into_result, replaced or dropped.",
  "all programs over pairs and references with branches and loops, all their executions", "undefined behaviour need not show in a test, and the programs that have it must be thought of first",
  ["src/stat.rs:317-340", "src/lib.rs:220-245"])
p("C65", "From calls to answers: a query totals everything granted to the entity and its children",
  "Whatever calls of insert, insert_base, modify, modify_with, get_mut, iter_mut, remove, remove_all, clear and extend (of new keys) made the StatMaps carried by entities and registered globally, and whatever defaults were registered, a query of a marked entity answers the starting value joined with exactly the qualifying entries of the global maps, of its own maps and of its children's; evaluated, this is the sum of everything added times the product of everything multiplied, rounded once and bounded; with or without a cache and after any past queries. Nothing else in the world matters.",
  "all programs, all call logs on all maps and on the table of defaults, all arrangements of streams, all entities, qualifiers and stats, all past queries", "the claim spans search, ordering, qualification, joining, defaults, streams and cache for unboundedly many maps and calls",
  ["src/stat_map.rs:154-378", "src/querier.rs:245-289", "src/plugin.rs:54-70", "src/plugin.rs:193-236", "src/cache.rs:56-90", "src/types/int_ratio.rs", "src/types/int_pct.rs", "src/operations.rs: StatOperation::write_to, into_stat"])
p("C66", "No order of the flags makes a stat map unsafe",
  "Ord of a user's flags is safe code, so a StatMap must not trust it: whatever it answers (inconsistent, changing from call to call, panicking inside a search with the panic caught), no call on a StatMap or observer of it is undefined behaviour, iterating a stat gives each of its entries once, and a query joins exactly the qualifying ones. With a lawful order the map is the one the other properties speak of. Not covered, and false: a panic of the order caught in the middle of the sort of extend; and that a value inserted under an unlawful order is found again.",
  "all programs, flags, orders (as functions of the count of questions asked so far), histories of calls with panics caught or not, every binary search and sort keeping std's contract for arbitrary closures", "an adversarial Ord interacts with the concrete probing sequence of std's search and sort; tests use lawful orders",
  ["src/stat_map.rs:97-99", "src/stat_map.rs:119-132", "src/stat_map.rs:155-163", "src/stat_map.rs:249-287", "src/stat.rs:151-155"])
p("C67", "Two stats never share a table in safe code; several or merged tables are harmless",
  "StatInst's safety invariant rests on the claim that two different Stats having one vtable is impossible in safe Rust, because vtable() returns &'static StatVTable<Self>, and that returning several tables causes logical errors but not unsafety. (a) A type's vtable() returns only tables made for this type. (b) While (a) holds, no call on a StatMap or StatValuePair is undefined behaviour, whatever tables vtable() returns from call to call, and even if the compiler merges tables of stats with the same value type. (a) is false as StatVTable is declared: PhantomData<T> is covariant, so W<fn(&'static u8)> may return the table of W<for<'a> fn(&'a u8)>; it holds for types without proper subtypes and would hold for all if T were invariant.",
  "all crates (types with subtyping, bodies of vtable(), addresses), all histories of calls with any table in each call, all orders of the flags", "the violating program needs higher-ranked function types in a type parameter, which no test uses; merging depends on the optimizer",
  ["src/stat.rs:16-21", "src/stat.rs:34-96", "src/stat.rs:109-116", "src/stat.rs:173-189", "src/stat.rs:214-219", "src/stat.rs:317-350", "src/stat_map.rs:154-378"])
p("C68", "No Hash, Eq, Clone or Drop of the flags makes the cache unsafe",
  "The cache hashes and compares keys containing a user's flags, whose Hash, Eq, Clone and Drop are safe code and may contradict each other, change from call to call and panic. Whatever they do, in any interleaving of threads sharing the cache: no query of sound streams is undefined behaviour; an entry is only ever found for the entity and the stat it was stored for (only the query may be mistaken); clearing and dropping run each buffer's own drop function, at most once per buffer. With lawful flags the cache is the one the other properties speak of. False, and refuted: that the answers stay right.",
  "all programs, flags and per-operation behaviours of their functions, all sets of threads and queriers, all interleavings, all panics of values' clone and drop", "an adversarial Hash/Eq interacts with the probing of the hash table and with other threads; tests use derived implementations",
  ["src/cache.rs:10-24", "src/cache.rs:56-99", "src/qualifier.rs:16-60", "src/qualifier.rs:153-166", "src/querier.rs:254-290"])
p("C69", "Which items derive(Stat) accepts",
  "#[derive(Stat)] accepts exactly the unit structs and fieldless enums (with integer literals up to u64 as discriminants) for which some #[stat(...)] attribute declares value = \"a type\", and generates an impl with that value type and the numbering of C40; everything else is refused, with a determined complaint. Other attributes, #[stat] without arguments and bare arguments change nothing. False, and refuted: a declared value is always found (an unknown argument with a value of its own, as unit = \"m\", silently ends the reading of the attribute, and a value after it is reported missing).",
  "all items: any attributes and arguments, any struct, enum or union, any type grammar, macro built with or without overflow checks", "compile-fail tests try a handful of items, and errors thrown away with let _ leave no trace",
  ["derive/src/lib.rs:36-67", "derive/src/lib.rs:69-98", "derive/src/lib.rs:100-139", "derive/src/lib.rs:175-177"])
p("C70", "Byte formats: maps come back, nothing else panics",
  "In a byte format that does not describe itself (postcard, used by tests/serde.rs) a stat map is read back as it was whatever bytes follow it; every proper beginning of its bytes is refused with an error; different maps have different bytes, none beginning with another's; exactly the byte strings described by the format are accepted; no byte string makes loading panic or undefined when the impls return and every registered stat can be loaded; whatever is loaded holds values of the right types. False, and refuted: every map has one spelling (lengths may be padded), and the announced number of elements is respected (surplus elements of an entry are read as the next entry).",
  "all programs, flags, registries, maps and histories of calls; all byte strings; any impls of values and flags that round trip", "tests save and load one map of defaults; truncated, padded and miscounted inputs are not tried",
  ["src/stat_map.rs:64-69", "src/stat_map.rs:380-455", "src/stat.rs:39-93", "src/stat.rs:248-275", "src/qualifier.rs:78-84", "tests/serde.rs:194-211"])
p("C71", "Between two clearings nothing is computed twice",
  "While the cache is not cleared, a stat of an entity under a query is computed only if the cache has no answer, and then at most once: not by code asking it again, not by streams asking further questions, not in later programs, not when the code panics in the end (up to the panic); everything computed by code that ends is in the cache. Threads sharing the cache compute each question at most once per thread, and nothing that was there before. False, and refuted: at most once altogether when threads race (the lock is not held while computing), and if a stream replaces the pair by that of another stat.",
  "all programs, flags, queriers of streams that do not clear the cache and keep the stat, all code, all past histories, all numbers of threads and interleavings", "the value is right either way, so no test of answers notices a recomputation",
  ["src/cache.rs:56-82", "src/querier.rs:245-289"])
p("C72", "Every stat value round-trips through the byte format, and only what was written is read",
  "In the binary format the tests use (postcard), each stat type, rounding ratio, stat operation and cached answer is written as the varints, floats and variant numbers of its fields in declaration order; what was written is read back equal, whatever follows it; no proper beginning of it is accepted; reading never panics; numbers that are equal load as stats that behave the same, and bytes written for one stat type are not accepted as another.",
  "all integer types, both float formats, all values, operations, following bytes and truncations",
  "unbounded values and byte strings, quantified over types",
  ["src/types/*.rs: derived Serialize/Deserialize", "src/num_traits.rs:283-291: Fraction", "src/operations.rs:5-42", "src/cache.rs:22-27", "src/querier.rs:23-25", "tests/serde.rs"])
p("C73", "Panics in calls on a world do not corrupt it",
  "If calls on a world panic and the panics are caught, the world stays usable: each resource exists exactly if one of its calls was made, even one that panicked, and holds what those calls made of it; stats registered before a name clash keep their meaning; defaults read, query and drop correctly provided patches follow insertions; no later call has undefined behaviour of its own; a panicking query leaves only correct answers in the cache, so that code still returns what it returns without a cache. A call that panics leaves the world as it was (false, and refuted: names registered before the clash stay).",
  "all programs, flags, scenes, histories of calls with any of them panicking, and anything user code left behind",
  "needs a panic at an arbitrary point of an arbitrary history, and then every observation afterwards",
  ["src/plugin.rs:47-118", "src/plugin.rs:148-165", "src/plugin.rs:258-266", "src/cache.rs:56-90"])
p("C74", "Which of two zeros min and max return changes no result but the sign of a zero",
  "Whatever f32::min/max and f64::min/max return for 0.0 and -0.0, and however that differs between calls, every history of operations and joins on a float stat evaluates to the same number (equal by ==, or NaN both times), and integer stats with float multipliers evaluate to exactly the same integer.",
  "all float formats, all implementations of min and max that keep std's contract (a different one in each call), all histories",
  "the choice is made by the compiler and the CPU; a test sees one of them",
  ["src/types/float.rs: join, eval, min, max of StatFloat, StatFloatAdditive, StatMult", "src/rounding.rs: TruncateSigned"])
p("C75", "What more was granted to is worth no less",
  "If operands are replaced by better ones, gains put in and losses left out, anywhere in the operations, joined values and maps that make up a stat, then the stat is worth no less, in every rounding mode, as long as arithmetic does not wrap around, multipliers are not negative and, where multipliers are improved, what they multiply is not negative. An entity whose maps and defaults are improved in this way answers no less.",
  "all integer, fraction and float value types except StatIntPercent, all rounding modes, trees of operations and joins, games", "a violation needs a rounding mode, a saturation or an infinity to cross over at one particular value; tests compare single results",
  ["src/types/int_ratio.rs", "src/types/int_pct.rs", "src/types/float.rs", "src/rounding.rs", "src/querier.rs: query_eval"])
p("C76", "Operations are ordered by kind and operand, and what compares equal behaves alike",
  "The derived PartialEq and PartialOrd of StatOperation keep std's contract whenever the operands do, order operations of different kinds as they are declared (Add, Mul, Or, Not, Min, Max, Base) and those of one kind by their operands. Two values of a stat type that compare equal stay interchangeable: after equal operations and joins with equal values both are worth the same or both panic, up to the sign of a float zero.",
  "all operations of all value types, all operands including NaN and zeros of either sign, all sequences of operations and joins", "equality is hardly tested where it is not identity: zeros of either sign, fractions not in lowest terms, NaN",
  ["src/operations.rs: derive of StatOperation", "src/types/int_ratio.rs", "src/types/int_pct.rs", "src/types/float.rs", "src/num_traits.rs: derive of Fraction"])
p("C77", "Saving and loading between calls leaves no trace",
  "However a map is saved, dropped and loaded between the calls made on it, as a document or as bytes, in processes with whatever registries, as long as what it holds can be saved and its names lead back where it is loaded: every loading succeeds, later calls return exactly if they would have, and in the end the map is the one the calls alone make. So a game answers every query from its logs of calls, as if it had never been saved.",
  "all programs, calls, interleavings with saving and loading in both formats, registries, games and queries", "tests save once, at the end, and load into the same registry; a fault may only show in calls made on a loaded map",
  ["src/stat_map.rs: Serialize and Deserialize of StatMap", "src/stat.rs: serialization of StatInst", "src/plugin.rs: StatDeserializers", "src/querier.rs: query"])
p("C78", "A temporary modifier leaves no trace",
  "If a modifier is granted under a key that is not in use, by insert, insert_base, modify or modify_with, and removed again later, and no other call makes an entry under that key in between, then in the end the map is exactly what it would have been without it, whatever other calls were made. While it lasts every other key reads as without it, and unless its own key is touched, removing it hands back exactly what was granted. A game in which any number of modifiers came and went answers every query as if there had been none.",
  "all programs, maps, keys, grants, calls in between, numbers and nestings of temporary modifiers, games and queries", "a leftover shows only in a later call or query under a key that the temporary modifier displaced; tests check the map right after the removal",
  ["src/stat_map.rs:166-337 (insert, insert_base, remove, modify, modify_with)", "src/querier.rs: query"])
p("C79", "It does not matter where a modifier is granted",
  "Two games in which an entity starts from the same value and has the same entries of a stat for a query, on whichever of its own maps, its relations', its children's or the global ones and under whichever qualifiers, answer the query alike: both return the same value and the same result, or neither returns. For arithmetic that may panic, they agree if both return.",
  "all games, queries, distributions of entries over maps and qualifiers; all value types for C79_moved and C79_agree, the provided types by name", "tests put modifiers on one map in one order; the order in which maps are visited shows only with three entries and values at the edge",
  ["src/querier.rs: query", "src/stat_map.rs: stream_stat", "src/types/mod.rs", "README.md: no ordering is needed"])
p("C80", "Stats that follow from other stats",
  "With rules registered as global relations that compute operations on a stat from the answers to any other questions, in any order with global maps, a query returns exactly the starting value joined with the selected entries of all maps and changed by the operations the rules about that stat come up with, each in its turn; the rules see the same answers as the program would. If the rules can be ranked so that each asks only about lower stats, every query comes to an end. Cached or not, whatever was asked before.",
  "all games, rules with arbitrary code, queries, histories of queries", "tests have one rule over one other stat; nested rules, rules between maps and the cache in between are not compared with what they should amount to",
  ["src/plugin.rs:76-83 register_stat_relation", "src/querier.rs: query", "src/stat.rs:332-340 is_then_cast", "README.md: relations"])
p("C81", "More of a stat is no loss to the stats that follow it",
  "Two games with the same rules, in one of which every entity was granted at least as much of the stats looked at: if each rule about them makes a stat follow a lower one and comes up with no less for more of it, no query about them returns less there. Not so for rules that take away.",
  "all games, rules over any number of levels, queries, histories of queries", "no test compares two worlds, or has rules over more than one level",
  ["src/plugin.rs:76-83 register_stat_relation", "src/querier.rs: query_eval", "src/types/int.rs", "README.md: relations"])
p("C82", "The order in which maps and rules are registered does not matter",
  "Two games in which stats start from the same values and the entities have the same maps and rules, in any order: if the value types need no order, and the rules set no base and ask only about lower stats, every program that queries stats gets the same result in both or in neither; for value types that may panic, no program gets two different results. Not so for rules that set a base.",
  "all games, rules with arbitrary code, programs that ask any number of queries, histories of queries", "tests register one relation at most, so no two orders are compared",
  ["src/plugin.rs:76-83 register_stat_relation", "src/querier.rs: query", "src/stream.rs: StatStream", "src/types"])
p("C83", "Maps and rules that have nothing to do with a question change nothing",
  "For any set of questions (stats of entities for qualifiers) that is closed under what rules ask to answer them: two games with the same starting values, the same entries for these questions and the same rules about these stats let every program that asks them end alike, in the same result or the same panic, whatever other maps and rules there are, even ones that panic or never end, and whatever was asked before.",
  "all games, rules with arbitrary code, programs that ask any number of queries, histories of queries", "tests never add unrelated entries or rules to compare answers before and after",
  ["src/plugin.rs:76-83 register_stat_relation", "src/querier.rs: query", "src/stat.rs:332-340 is_then_cast", "src/stat_map.rs: StatStream for StatMap"])
p("C84", "Queries inside queries go no deeper than the chain of rules",
  "When stats can be ranked so that every rule asks only about stats of lower rank than its own, code that asks about stats of rank below n comes to its end with at most n queries inside each other, with or without a cache and whatever was asked before, and gives the same result when it is allowed any more.",
  "all games, rules with arbitrary code, rankings, programs, histories of queries", "tests do not measure how deep the recursion goes",
  ["src/querier.rs: query", "src/plugin.rs:76-83 register_stat_relation", "src/stat.rs:332-340 is_then_cast"])
p("C85", "Relation queries in a game: the global maps and rules, and what ties two entities",
  "The value of a relation query between two stat entities is the starting value of the stat, joined with the entries of the global maps and changed by what the global rules come up with (which see the placeholder instead of an entity), and then by what the relation components come up with that both entities have, given the map of the one and of the other, in this order; nothing else contributes, with or without a cache and whatever was asked before. Unless both entities are stat entities there is no answer.",
  "all games, rules and relation components with arbitrary code that may ask further queries, histories of queries", "there are no tests that combine relation components with global relations or nested queries",
  ["src/querier.rs:291-315 query_relation_erased", "src/stream.rs:158-235 RelationStream, CxComponentStream::relation", "src/plugin.rs:76-83 register_stat_relation"])
p("C86", "Registered bounds hold for every answer",
  "A minimum registered for a stat, and not replaced by a later default, is no greater than any evaluated answer for that stat, whatever maps, rules, children and relation components contribute, as long as rules do not set the base; a registered maximum is no less than any such answer unless a greater minimum was contributed. For stat queries and relation queries, and every value type whose bounds accumulate and hold (the integer types, C10).",
  "all games, rules with arbitrary code that may ask further queries, histories of queries", "tests register bounds but check them only with contributions that stay within",
  ["src/plugin.rs: register_stat_min, register_stat_max", "src/querier.rs:245-315", "src/types: eval with bounds"])
p("C87", "The answers are the one solution of the rules",
  "The game and its rules are equations between answers: the value of a stat of an entity is what the maps and rules that contribute make of the starting value when the rules are given the same answers. When rules ask only questions of lower rank than the one they help to answer (by stat, entity and qualifier), these equations have exactly one solution, and every program that asks ends as if it were handed the answers of this solution, in the same result or the same panic, with or without a cache and whatever was asked before.",
  "all games, rules with arbitrary code, rankings, programs, histories of queries", "tests compare single answers with expected numbers",
  ["src/querier.rs: query", "src/plugin.rs:76-83 register_stat_relation", "src/stat.rs:332-340 is_then_cast"])
os.chdir(os.path.join(os.path.dirname(os.path.abspath(__file__)), ".."))
with open("properties.jsonl", "w") as f:
    for x in P: f.write(json.dumps(x, ensure_ascii=False) + "\n")
print(len(P))
