{
 "claims": [
  {
   "property": "C01",
   "status": "proved",
   "theorems": [
    "C01_aggregate_matches_exactly",
    "C01_aggregate_matches_exactly_int",
    "C01_blanket_lawful",
    "C01_int_lawful",
    "C01_bool_lawful"
   ],
   "note": ""
  },
  {
   "property": "C02",
   "status": "proved",
   "theorems": [
    "C02_exact_matches_exactly",
    "C02_exact_denies_general",
    "C02_no_double_count",
    "C02_set_equals_not_used_refuted"
   ],
   "note": ""
  },
  {
   "property": "C03",
   "status": "proved",
   "theorems": [
    "C03_aggregate_monotone",
    "C03_none_matches_all",
    "C03_only_none_matches_none",
    "C03_and_all_of_narrows",
    "C03_and_any_of_widens",
    "C03_builder_order_all",
    "C03_builder_order_any",
    "C03_builder_order_mixed"
   ],
   "note": ""
  },
  {
   "property": "C04",
   "status": "proved",
   "theorems": [
    "C04_int_flags",
    "C04_bool_flags",
    "C04_key_order",
    "C04_binary_search_contract_old",
    "C04_binary_search_contract_new",
    "C04_map_semantics",
    "C04_total"
   ],
   "note": "Refinement of every history of single operations to a finite map with dependent value types; both std binary searches proved to meet the assumed contract. Bulk insertion is in C07. The order of the keys is spelled out (C04_key_order), and the two kinds of flags used as examples are shown to satisfy the assumptions on flags (C04_int_flags, C04_bool_flags)."
  },
  {
   "property": "C05",
   "status": "proved",
   "theorems": [
    "C05_query_joins_exactly",
    "C05_selection_unique",
    "C05_query_joins_iter"
   ],
   "note": "Proved for single-operation histories against the abstract map, and for all histories against iter."
  },
  {
   "property": "C06",
   "status": "proved",
   "theorems": [
    "C06_iter",
    "C06_iter_mut",
    "C06_remove_all"
   ],
   "note": ""
  },
  {
   "property": "C07",
   "status": "proved",
   "theorems": [
    "C07_no_repeats",
    "C07_extend_fresh_keys",
    "C07_from_iter_is_extend",
    "C07_extend_keeps_every_entry",
    "C07_remove_takes_one",
    "C07_remove_then_get_refuted",
    "C07_repeated_key_query_refuted"
   ],
   "note": "False as stated: refuted for repeated keys (remove leaves the other copy, queries count both). Proved: map semantics when keys are new and distinct; for any input nothing is lost, the vector is sorted and stable, remove takes exactly one copy; and a map of any history holds no key twice iff single operations reach it (C07_no_repeats), so everything proved of single operations holds of it."
  },
  {
   "property": "C08",
   "status": "proved",
   "theorems": [
    "C08_StatInt_order_free",
    "C08_StatIntPercentAdditive_order_free",
    "C08_StatFlags_order_free",
    "C08_StatFlags_int_order_free",
    "C08_StatExists_order_free",
    "C08_bool_order_free",
    "C08_StatOnce_order_free"
   ],
   "note": "Every permutation of contributions gives the same outcome, for arithmetic that wraps (Wrapping newtypes, or primitives without overflow checks)."
  },
  {
   "property": "C09",
   "status": "proved",
   "theorems": [
    "C09_StatInt_checked_agree",
    "C09_StatIntPercentAdditive_checked_agree",
    "C09_StatIntFraction_checked_agree",
    "C09_StatInt_unsigned_saturating_order_free",
    "C09_signed_saturating_refuted",
    "C09_checked_panic_refuted",
    "C09_release_fraction_refuted",
    "C09_f32_refuted",
    "C09_Prioritized_refuted"
   ],
   "note": "False as stated: refuted for signed Saturating, checked primitives (one order panics), unchecked fractions, f32 and Prioritized. Proved for everything else: checked orders that succeed agree, unsigned Saturating needs no order."
  },
  {
   "property": "C10",
   "status": "proved",
   "theorems": [
    "C10_StatInt_eval_within_bounds",
    "C10_StatIntFraction_eval_within_bounds",
    "C10_StatIntPercentAdditive_eval_within_bounds",
    "C10_StatIntPercent_eval_within_bounds",
    "C10_StatIntFloatMul_eval_within_bounds",
    "C10_StatInt_bounds_accumulate",
    "C10_StatIntFraction_bounds_accumulate",
    "C10_StatIntPercentAdditive_bounds_accumulate",
    "C10_StatIntPercent_bounds_accumulate",
    "C10_StatIntFloatMul_bounds_accumulate",
    "C10_contributed_bounds_respected"
   ],
   "note": "Proved for every integer type, including the float multiplied one."
  },
  {
   "property": "C11",
   "status": "proved",
   "theorems": [
    "C11_float_base",
    "C11_float_base_refuted",
    "C11_fraction_base",
    "C11_StatInt_base",
    "C11_StatIntFraction_base",
    "C11_StatIntPercent_base",
    "C11_StatIntPercentAdditive_base",
    "C11_other_types_base",
    "C11_StatIntPercentAdditive_refuted",
    "C11_StatIntFraction_floor_min_refuted"
   ],
   "note": "Proved with the exact side conditions for every type; false at the edges and refuted there: percentages once b*SCALE overflows, Floor at MIN in checked builds, NaN and infinite floats, integers with more digits than the float multiplier has."
  },
  {
   "property": "C12",
   "status": "proved",
   "theorems": [
    "C12_StatFloat",
    "C12_StatFloatAdditive",
    "C12_StatMult",
    "C12_float_built",
    "C12_float_refuted",
    "C12_StatIntFloatMul",
    "C12_fraction",
    "C12_bool",
    "C12_Prioritized_right",
    "C12_Prioritized_left",
    "C12_Prioritized_split",
    "C12_Prioritized_refuted",
    "C12_StatInt",
    "C12_StatIntPercentAdditive",
    "C12_StatIntFraction",
    "C12_StatFlags",
    "C12_StatExists",
    "C12_StatOnce"
   ],
   "note": "Both laws, panics included, for the listed types, and also for bool, for integers with float multipliers, for fractions in place of floats, and for the float stats on exactly the settled values (C12_StatFloat, C12_StatFloatAdditive, C12_StatMult are equivalences). Every float value made from the default and from bases other than -0.0 is settled (C12_float_built); a base of -0.0 becomes 0.0 (C12_float_refuted). Not among the listed types: for Prioritized both laws fail, exactly when is proved (C12_Prioritized_right, C12_Prioritized_left, C12_Prioritized_split)."
  },
  {
   "property": "C13",
   "status": "proved",
   "theorems": [
    "C13_StatIntPercent_query_doubles",
    "C13_StatIntPercent_query_refuted",
    "C13_StatIntPercent_default_neutral_refuted",
    "C13_StatIntPercent_separate_multipliers_refuted"
   ],
   "note": "False of the code: three refutations and the exact value a query returns, 2*(b+1)."
  },
  {
   "property": "C14",
   "status": "proved",
   "theorems": [
    "C14_documented_when",
    "C14_documented_iff",
    "C14_Prioritized_takes_last_above_initial",
    "C14_Prioritized_keeps_initial",
    "C14_Prioritized_default_priority",
    "C14_Prioritized_documented_refuted"
   ],
   "note": "False of the code for both variants: refuted by C14_Prioritized_documented_refuted. What the code computes is proved instead, and exactly when it is the documented result (C14_documented_when, C14_documented_iff)."
  },
  {
   "property": "C15",
   "status": "proved",
   "theorems": [
    "C15_StatOnce_counts",
    "C15_StatOnce_try_set",
    "C15_StatOnce_accessors"
   ],
   "note": "Any tree of or/join contributions."
  },
  {
   "property": "C16",
   "status": "proved",
   "theorems": [
    "C16_StatFlags_exclusion_wins",
    "C16_int_flags_lawful",
    "C16_bool_flags_lawful"
   ],
   "note": "Any tree of contributions, any lawful flag type; integers and bool shown lawful."
  },
  {
   "property": "C17",
   "status": "proved",
   "theorems": [
    "C17_StatExists_or",
    "C17_bool_join",
    "C17_bool_or_refuted",
    "C17_bool_operations_ignored"
   ],
   "note": "Proved for StatExists and for join on bool; refuted for Or on bool, whose operations are all ignored."
  },
  {
   "property": "C18",
   "status": "proved",
   "theorems": [
    "C18_formula_total",
    "C18_checked_never_wrong",
    "C18_narrow_scale_refuted",
    "C18_product_fits_refuted",
    "C18_scale_kept",
    "C18_scale_zero_panics",
    "C18_wide_types_panic"
   ],
   "note": "Proved relative to from_i64(SCALE), which is SCALE when it fits. Refuted when SCALE does not fit the integer type, and when the product fits but the sum of multipliers or the rounding of num-rational overflows (checked builds panic). Zero scale and wide types always panic."
  },
  {
   "property": "C19",
   "status": "proved",
   "theorems": [
    "C19_new_exact_or_panics",
    "C19_add_exact_or_panics",
    "C19_sub_exact_or_panics",
    "C19_mul_exact_or_panics",
    "C19_mul_succeeds_when_representable",
    "C19_release_agrees",
    "C19_order_of_rationals",
    "C19_lowest_terms_unique",
    "C19_add_panics_only_if_unrepresentable_refuted",
    "C19_release_exact_refuted",
    "C19_gcd_algorithm",
    "C19_order_algorithm",
    "C19_division_algorithm",
    "C19_new_succeeds",
    "C19_new_iff",
    "C19_add_iff",
    "C19_sub_iff",
    "C19_mul_iff"
   ],
   "note": "False as stated: refuted, sums that can be represented may panic, and release builds wrap. Proved: in checked builds every result is exact and in lowest terms or the operation panics, and exactly when each of new, +, - and * succeeds; release builds agree where checked builds return. C19_division_algorithm: the floor division used by num-integer is the mathematical one for all signs."
  },
  {
   "property": "C20",
   "status": "proved",
   "theorems": [
    "C20_float_rounding",
    "C20_float_rounding_unique",
    "C20_float_rounding_special",
    "C20_fraction_rounding",
    "C20_rounding_unique",
    "C20_floor_is_Qfloor",
    "C20_ceil_is_Qceiling",
    "C20_fraction_overflow_panics",
    "C20_fraction_floor_release_refuted",
    "C20_fraction_ceil_checked_total_refuted"
   ],
   "note": "All fractions (with the exact inputs on which floor/ceil overflow) and all finite floats of any precision, over the reals; NaN and infinities unchanged; the integer is unique."
  },
  {
   "property": "C21",
   "status": "proved",
   "theorems": [
    "C21_from_i64_nearest",
    "C21_from_i64_wide_panics",
    "C21_from_i64_total_refuted"
   ],
   "note": ""
  },
  {
   "property": "C22",
   "status": "proved",
   "theorems": [
    "C22_operations_safe",
    "C22_observers_safe",
    "C22_unsorted_vector_refuted"
   ],
   "note": "All histories including repeated keys. A witness shows the same code is undefined on an unsorted vector (see C39)."
  },
  {
   "property": "C23",
   "status": "proved",
   "theorems": [
    "C23_defaults_map",
    "C23_untouched_default",
    "C23_no_ub",
    "C23_total",
    "C23_patch_unregistered",
    "C23_defaults_map_refuted",
    "C23_ub_iff",
    "C23_any_history",
    "C23_query_orphaned"
   ],
   "note": "False as stated: refuted, patching a stat that was never inserted stores the operation itself, and every later access to it is undefined. Proved: map semantics, safety and totality for all histories that insert before patching; and for all other histories exactly when registering, reading, querying and dropping are undefined, and what is read otherwise (C23_ub_iff, C23_any_history, C23_query_orphaned, C24_defaults_drop_iff)."
  },
  {
   "property": "C24",
   "status": "proved",
   "theorems": [
    "C24_cache_conserved",
    "C24_cache_drop_ok",
    "C24_cache_alone_lossless",
    "C24_cache_refuted",
    "C24_query_start_lost_iff",
    "C24_defaults_conserved",
    "C24_defaults_lost_iff",
    "C24_defaults_drop_once",
    "C24_get_dyn_lost_iff",
    "C24_defaults_refuted",
    "C24_into_result_lost_iff",
    "C24_defaults_drop_iff",
    "C24_decoding_leaks_exactly",
    "C24_map_values_conserved",
    "C24_map_leaks_exactly_overwritten",
    "C24_map_no_leak_refuted"
   ],
   "note": "False of the code: refuted for StatMap::insert, GlobalStatDefaults::insert, get_dyn and into_result, which leak, and for StatCache, where a racing or pair-swapping query overwrites an entry without dropping it. Proved: values are conserved, none is released twice, and the conditions under which StatMap, defaults and query start leak; a single thread with stat-keeping streams overwrites no cache entry."
  },
  {
   "property": "C25",
   "status": "proved",
   "theorems": [
    "C25_validate_exact",
    "C25_others_panic_before_access",
    "C25_buffer_is_a_variable",
    "C25_from_undefined_exactly",
    "C25_from_in_bounds_and_aligned_refuted"
   ],
   "note": "Bounds and alignment proved for every access to a Buffer variable; refuted for Buffer::from, which writes through a byte array of alignment 1 (exact addresses given)."
  },
  {
   "property": "C26",
   "status": "proved",
   "theorems": [
    "C26_struct",
    "C26_struct_unique",
    "C26_StatInt",
    "C26_StatFloat",
    "C26_containers",
    "C26_every_parameter_refuted",
    "C26_layouts",
    "C26_sizes"
   ],
   "note": "False of the code: refuted; the exact set of accepted parameters is proved for every provided constructor. C26_layouts and C26_sizes tie the layouts to the fields and to numbers."
  },
  {
   "property": "C27",
   "status": "proved",
   "theorems": [
    "C27_transparent",
    "C27_entries_right",
    "C27_no_resource",
    "C27_transparent_refuted"
   ],
   "note": "False as stated for all stream programs: refuted with a stream that replaces the pair by one of another stat. Proved for every querier whose streams keep the stat of the pair (stats_kept), distinct vtable addresses and a lawful Eq on qualifiers, for all histories and nesting."
  },
  {
   "property": "C28",
   "status": "proved",
   "theorems": [
    "C28_threads",
    "C28_progress",
    "C28_finite"
   ],
   "note": "Proved under the hypotheses of C27 (streams keep the stat; without that C27_transparent_refuted applies). Steps are the lock-protected cache operations; lock poisoning is not modelled. Also: no thread is stuck and no schedule is infinite."
  },
  {
   "property": "C29",
   "status": "proved",
   "theorems": [
    "C29_clear_restores",
    "C29_stale"
   ],
   "note": "Proved: fresh after clear (under the hypotheses of C27) and stale until cleared, across different queriers and worlds, if the entity is still marked."
  },
  {
   "property": "C30",
   "status": "proved",
   "theorems": [
    "C30_per_querier_refuted",
    "C30_agreeing_queriers"
   ],
   "note": "False of the code: refuted, the cache key does not mention the querier. Proved: queriers whose uncached answers agree may share a cache."
  },
  {
   "property": "C31",
   "status": "proved",
   "theorems": [
    "C31_unmarked",
    "C31_unmarked_relation",
    "C31_marked",
    "C31_marked_relation"
   ],
   "note": "Proved for stats and relations, component and evaluated forms, every cache content. Hypothesis: the value type fits a buffer (otherwise the call panics)."
  },
  {
   "property": "C32",
   "status": "proved",
   "theorems": [
    "C32_sources",
    "C32_attached",
    "C32_appends",
    "C32_only_own_and_children"
   ],
   "note": "Proved as an equation: the answer is the starting value followed by the listed sources in order; attaching a stream inserts exactly its block; components of other entities are not read. Stated without a cache; with one, C27 applies."
  },
  {
   "property": "C33",
   "status": "proved",
   "theorems": [
    "C33_order_free",
    "C33_order_free_if_done"
   ],
   "note": "Proved for sources that compute contributions independently of the value so far: all orders give the same result if the value type is order free (C08), and successful orders agree if its arithmetic may panic (C09)."
  },
  {
   "property": "C34",
   "status": "proved",
   "theorems": [
    "C34_terminates_iff",
    "C34_rank",
    "C34_cycle"
   ],
   "note": "Proved: a question is answered at some depth iff the questions it leads to are well founded; a rank implies termination, cached or not; any cycle is never answered at any depth, cached or not. Non-termination is NoFuel at every depth."
  },
  {
   "property": "C35",
   "status": "proved",
   "theorems": [
    "C35_sources",
    "C35_not_cached"
   ],
   "note": "Proved, with a cache present too. Global relations are applied to Entity::PLACEHOLDER."
  },
  {
   "property": "C36",
   "status": "proved",
   "theorems": [
    "C36_sources",
    "C36_disjunction",
    "C36_gated_refuted",
    "C36_unmarked_no_children"
   ],
   "note": "False as stated: refuted, has_attribute is not limited to StatEntity. Proved: it is the disjunction over sources when all return (the first true decides), and children count only for marked entities."
  },
  {
   "property": "C37",
   "status": "proved",
   "theorems": [
    "C37_register_resolves",
    "C37_register_again",
    "C37_register_panics_exactly",
    "C37_register_panics_on_clash",
    "C37_register_panics_only_on_earlier_refuted",
    "C37_register_panic_state",
    "C37_replace_binds",
    "C37_history_sound",
    "C37_history_resolves"
   ],
   "note": "Proved for all registries and histories (panics included): what a successful call binds, exactly when it panics, the state after a panic, idempotence, replacement. One deviation from the wording: a type that gives one name to two of its own values panics even on an empty registry (refuted as stated, exact condition proved)."
  },
  {
   "property": "C38",
   "status": "proved",
   "theorems": [
    "C38_same_process",
    "C38_history_same_process",
    "C38_registered_names_lead_back",
    "C38_other_process_content",
    "C38_other_process_same_order",
    "C38_other_process_one_type",
    "C38_other_process_refuted"
   ],
   "note": "False as stated for another build: the derived Deserialize does not re-sort and the order depends on vtable addresses, so lookups fail and a query by safe code reads a value at the wrong type (C38_other_process_refuted). Proved: identity in the same process for every map of every history; in any process the same entries come back; all observers agree when the new addresses order the map's stat types as the old ones did, in particular for maps of one stat type."
  },
  {
   "property": "C39",
   "status": "proved",
   "theorems": [
    "C39_accepted_iff",
    "C39_entry_iff",
    "C39_qualifier_iff",
    "C39_single_faults",
    "C39_faulty_item_no_map",
    "C39_faulty_item_error",
    "C39_loaded_is_typed",
    "C39_always_error_refuted",
    "C39_bad_order_accepted_refuted"
   ],
   "note": "Proved as an exact characterisation of the documents that yield a map, plus each single fault. Refuted parts: without the StatDeserializers resource an unregistered name panics instead of an error; entries in a bad order are accepted and later queries are undefined."
  },
  {
   "property": "C40",
   "status": "proved",
   "theorems": [
    "C40_indices_distinct_iff",
    "C40_indices_distinct_refuted",
    "C40_from_index_first",
    "C40_round_trip_iff",
    "C40_first_explicit",
    "C40_all_implicit",
    "C40_bad_index",
    "C40_values_names",
    "C40_vtable_names_iff"
   ],
   "note": "False as stated: enum { A, B = 1 } gives both variants index 1. Proved: exact condition under which the indices are distinct, round trip iff distinct, all-implicit and first-explicit enums are fine, default arm, names, values, unit structs."
  },
  {
   "property": "C41",
   "status": "proved",
   "theorems": [
    "C41_lexicographic",
    "C41_total_order",
    "C41_equality",
    "C41_operators"
   ],
   "note": "C41_lexicographic spells the order out: by the address of the table first, then by the index."
  },
  {
   "property": "C42",
   "status": "proved",
   "theorems": [
    "C42_first_matching_arm",
    "C42_no_arm",
    "C42_runs_first_matching_arm_refuted"
   ],
   "note": "First matching arm proved when the stat types fit the buffer limits; refuted otherwise (the check is made on the stat type and panics)."
  },
  {
   "property": "C43",
   "status": "proved",
   "theorems": [
    "C43_safe_code_keeps_pair_typed",
    "C43_typed_result_if_stat_kept",
    "C43_typed_result_refuted",
    "C43_queries_sound",
    "C43_queries_refuted"
   ],
   "note": "False as stated: refuted, a safe stream may replace the pair, giving undefined behaviour through a query. Proved: every safe operation keeps the pair well typed, the result is typed if the stat is kept, and queries whose streams keep the stat have no undefined behaviour, cached or not."
  },
  {
   "property": "C44",
   "status": "proved",
   "theorems": [
    "C44_eval",
    "C44_relation_eval",
    "C44_noop"
   ],
   "note": "Proved as equations of results and caches."
  },
  {
   "property": "C45",
   "status": "proved",
   "theorems": [
    "C45_eval",
    "C45_addend_fits",
    "C45_total",
    "C45_base",
    "C45_base_exact",
    "C45_base_f64",
    "C45_base_f32",
    "C45_base_refuted"
   ],
   "note": "Bounds for every multiplier including NaN and infinities, no panic, and the exact value: proved. 'from_base(x).eval() == x for every integer' is false: refuted at 16777217 with f32 and 2^53+1 with f64; the exact result (nearest representable, kept in range) is proved, hence equality whenever |x| <= 2^prec."
  },
  {
   "property": "C46",
   "status": "proved",
   "theorems": [
    "C46_StatFloat_within_bounds",
    "C46_StatFloatAdditive_within_bounds",
    "C46_StatMult_within_bounds",
    "C46_StatFloat_bounds_accumulate",
    "C46_StatFloatAdditive_bounds_accumulate",
    "C46_StatMult_bounds_accumulate",
    "C46_never_nan",
    "C46_defaults_not_nan",
    "C46_fraction_within_bounds",
    "C46_fraction_bounds_accumulate"
   ],
   "note": "For every float format and every history of steps, including NaN and infinite operands; bounds accumulate ignoring NaN; never NaN, never panics. The same for fractions as floats."
  },
  {
   "property": "C47",
   "status": "proved",
   "theorems": [
    "C47_stream_is_query"
   ],
   "note": ""
  },
  {
   "property": "C48",
   "status": "proved",
   "theorems": [
    "C48_clone_equal",
    "C48_clone_values_are_new"
   ],
   "note": "Clone of a value is assumed to return an equal value."
  },
  {
   "property": "C49",
   "status": "proved",
   "theorems": [
    "C49_formula_total",
    "C49_checked_never_wrong",
    "C49_release_refuted"
   ],
   "note": "Both directions proved; refuted without overflow checks."
  },
  {
   "property": "C50",
   "status": "proved",
   "theorems": [
    "C50_bytes",
    "C50_no_serialize"
   ],
   "note": "Proved for all maps and documents, and for the byte format (C50_bytes)."
  },
  {
   "property": "C51",
   "status": "proved",
   "theorems": [
    "C51_no_repeats",
    "C51_repeats_refuted",
    "C51_canonical_document"
   ],
   "note": "False as stated for maps that hold a key twice after a bulk insertion: refuted by C51_repeats_refuted. Proved for all histories, bulk insertions included, that end without a repeated key (C51_no_repeats)."
  },
  {
   "property": "C52",
   "status": "proved",
   "theorems": [
    "C52_resources",
    "C52_defaults_reach_queries",
    "C52_relations_reach_queries",
    "C52_defaults_any"
   ],
   "note": "Proved over all histories of World extension calls, cache insertions, seeding and queries. Calls that panic end a history here; C73 continues after them. The min/max-before-default defect of C23 appears here: C52_defaults_any says what a query returns after any calls, and that it is undefined exactly if the stat was patched but never given a value."
  },
  {
   "property": "C53",
   "status": "proved",
   "theorems": [
    "C53_clear_panics"
   ],
   "note": "Proved; the drop loop of clear is shown to succeed on every cache a history can build, seeded entries included."
  },
  {
   "property": "C54",
   "status": "proved",
   "theorems": [
    "C54_fresh_after_clear",
    "C54_stale_until_clear",
    "C54_reflects_registration_refuted",
    "C54_seeded"
   ],
   "note": "False as stated: refuted (a default registered after a cached query is not seen). Proved: true whenever the cache was emptied since the last change and streams keep the stat of the pair; and exactly what happens otherwise (the old value is returned until the cache is emptied, a seeded pair is returned)."
  },
  {
   "property": "C55",
   "status": "proved",
   "theorems": [
    "C55_is",
    "C55_is_then_cast",
    "C55_cast",
    "C55_into_result",
    "C55_unerased"
   ],
   "note": "Proved, for stat types that pass the size check the casts make on the stat type itself (see C42)."
  },
  {
   "property": "C56",
   "status": "proved",
   "theorems": [
    "C56_caught_panics_harmless",
    "C56_panic_is_local",
    "C56_slot_left",
    "C56_loop_left",
    "C56_extend_panic_refuted",
    "C56_extend_sorts_again"
   ],
   "note": "False as stated for extend: refuted (C56_extend_panic_refuted: a user iterator that panics inside extend leaves the vector unsorted and a later query is undefined behaviour). Proved for all other methods: any history with caught panics and arbitrary values left behind is free of UB and reaches a map that a panic-free history reaches; a panicking method changes only values it handed out; a later extend repairs the order."
  },
  {
   "property": "C57",
   "status": "proved",
   "theorems": [
    "C57_user_panics_harmless",
    "C57_answers_right",
    "C57_dropped_once",
    "C57_poison_is_permanent",
    "C57_poisoned_queries_panic",
    "C57_clone_panic_refuted",
    "C57_alone",
    "C57_poisoned_iff"
   ],
   "note": "False as stated: refuted (C57_clone_panic_refuted, C57_poisoned_queries_panic: a value whose clone panics inside cache_pair poisons the lock, after which every cached query of a marked entity and every clear panics). Proved: stream and arithmetic panics never poison; whatever panics, returned answers are the uncached ones; every cached buffer is dropped at most once. C57_alone and C57_poisoned_iff: a program alone is one of the interleavings, and the lock ends poisoned exactly if it was, or a clone or drop panicked under it."
  },
  {
   "property": "C58",
   "status": "proved",
   "theorems": [
    "C58_StatInt_checked",
    "C58_StatInt_wrapping",
    "C58_StatInt_fits",
    "C58_StatIntPercentAdditive_checked",
    "C58_StatIntPercentAdditive_fits",
    "C58_StatIntFraction_checked",
    "C58_StatIntFraction_fits",
    "C58_StatIntPercent_based",
    "C58_StatIntPercent_default",
    "C58_StatIntPercent",
    "C58_rate_any_form"
   ],
   "note": "For every tree of operations and joins. StatInt: exact in checked builds whenever it evaluates, modulo 2^bits for wrapping arithmetic, and exact in every build and flavour when the contributions leave room. StatIntPercentAdditive and StatIntFraction: exact in checked builds whenever they evaluate, and they evaluate when there is room. StatIntPercent: C58_StatIntPercent for every history, which counts 1 for each joined value without a base and adds the rates of joined values (the findings of C13); _based and _default spell out a single value."
  },
  {
   "property": "C59",
   "status": "proved",
   "theorems": [
    "C59_StatFloat",
    "C59_StatFloat_exact",
    "C59_StatFloat_order_free",
    "C59_StatFloatAdditive",
    "C59_StatFloatAdditive_exact",
    "C59_StatFloatAdditive_order_free",
    "C59_StatMult",
    "C59_StatMult_exact",
    "C59_StatMult_order_free",
    "C59_StatIntFloatMul_checked",
    "C59_StatIntFloatMul_fits",
    "C59_StatIntFloatMul_exact",
    "C59_f32",
    "C59_f64",
    "C59_Fraction_StatFloat_checked",
    "C59_Fraction_StatFloat_fits",
    "C59_Fraction_StatFloat_order_free",
    "C59_Fraction_StatFloatAdditive_checked",
    "C59_Fraction_StatFloatAdditive_fits",
    "C59_Fraction_StatFloatAdditive_order_free",
    "C59_Fraction_StatMult_checked",
    "C59_Fraction_StatMult_fits",
    "C59_Fraction_StatMult_order_free"
   ],
   "note": "For every tree of operations and joins and every binary format. Accuracy: n contributions give an error of at most n*2^(1-prec) times the sum of the sizes (sums) or times the product (products), for at most 2^(prec-2) contributions that stay clear of overflow and underflow. Exactness and order independence for contributions on a grid and short multipliers. Results are compared as numbers: zeros of either sign count as equal. C59_f32 and C59_f64 pin the two formats down. C59_Fraction_*: over Fraction the totals are exact rational numbers in lowest terms, with overflow checks whenever there is a result at all, and in every build when every partial total has room; either way they do not depend on the order."
  },
  {
   "property": "C60",
   "status": "proved",
   "theorems": [
    "C60_map",
    "C60_map_safe",
    "C60_defaults",
    "C60_defaults_refuted",
    "C60_cache",
    "C60_cache_safe",
    "C60_pair",
    "C60_registry",
    "C60_defaults_iff"
   ],
   "note": "False as stated for the table of defaults: refuted by C60_defaults_refuted (printing after register_stat_min or register_stat_max of a stat that was not inserted is undefined behaviour); C60_defaults_iff: it is so exactly when some stat was only patched. Proved for tables whose patched stats were inserted before, and without exception for maps, caches, pairs and the registry; a poisoned cache panics instead of printing. The output is modelled as its list of items."
  },
  {
   "property": "C61",
   "status": "proved",
   "theorems": [
    "C61_exclusive",
    "C61_atomic",
    "C61_all_orders",
    "C61_no_deadlock",
    "C61_finite",
    "C61_answers",
    "C61_reentry_refuted"
   ],
   "note": "False as stated for values whose Clone or Drop asks the cache they are in: refuted by C61_reentry_refuted (a deadlock). Proved when none does: until all threads have ended one can go on, and no execution is infinite (C61_no_deadlock, C61_finite). Proved without exception: exclusion, equivalence with single-step operations, answers. Poisoning is C57; fairness between waiting threads is not modelled."
  },
  {
   "property": "C62",
   "status": "proved",
   "theorems": [
    "C62_struct",
    "C62_variant",
    "C62_number",
    "C62_reads_fraction",
    "C62_reads_four_fields",
    "C62_reads_rounded",
    "C62_reads_percent",
    "C62_reads_mult",
    "C62_reads_flags",
    "C62_reads_prioritized",
    "C62_reads_once",
    "C62_reads_operation",
    "C62_round_trip",
    "C62_operations",
    "C62_unsupported",
    "C62_loaded_in_range",
    "C62_built_int",
    "C62_built_fraction",
    "C62_built_percent_additive",
    "C62_built_percent",
    "C62_built_float_mul",
    "C62_built_flags",
    "C62_built_once",
    "C62_built_prioritized",
    "C62_maps",
    "C62_entry_iff",
    "C62_returns",
    "C62_cache_empty",
    "C62_fraction_refuted",
    "C62_leaves"
   ],
   "note": "False as stated in its last clause: refuted by C62_fraction_refuted (100/100 and 1/1 are accepted for the same field, and the loaded stats evaluate differently, because a fraction is not reduced when it is read). Proved: acceptance is characterised exactly for structs, variants, numbers, fractions, operations and every value type; loaded numbers are in range and denominators nonzero; everything made by a history round trips in both kinds of format (floats and user types: given that their own codecs do), and so does every map filled with such values; a saved cache loads empty and unpoisoned; no document is an unsupported operation; an entry is accepted exactly if its flags, name and value are (C62_entry_iff), and reading a map never panics (C62_returns). C62_leaves: what each leaf reader accepts, as an equivalence."
  },
  {
   "property": "C63",
   "status": "proved",
   "theorems": [
    "C63_rem_iff",
    "C63_div_iff",
    "C63_div_exact_or_panics",
    "C63_div_zero",
    "C63_div_succeeds",
    "C63_div_edge_refuted",
    "C63_rem_exact_or_panics",
    "C63_remainder_unique",
    "C63_rem_zero",
    "C63_rem_min_refuted",
    "C63_integer_operands",
    "C63_release_agrees",
    "C63_release_exact_refuted"
   ],
   "note": "False as stated at the ends of the range: refuted by 64 / (-1/2) = -128 in i8 (panics), MIN % -1 = 0 (panics) and (1/127)/127 = 1 without overflow checks. Proved: in checked builds every quotient and remainder that is returned is exact and in lowest terms, anything else panics; representable quotients of lowest-terms fractions are found in every build away from the least integer; zero divisors panic; integer operands are that integer over one; what the checked build returns the unchecked build returns. C63_rem_iff and C63_div_iff: exactly when checked builds return."
  },
  {
   "property": "C64",
   "status": "proved",
   "theorems": [
    "C64_bound_sound",
    "C64_references_refuted",
    "C64_programs",
    "C64_bound_accepts_less",
    "C64_match_stat"
   ],
   "note": "False as stated: the lifetime of the reference is unconstrained, refuted by four accepted programs with undefined behaviour (two live references, use after into_result, after the end of scope, after replacement by another type). Proved: if the reference is bound to the borrow of the pair, no accepted program with branches and loops has undefined behaviour; these programs are among those accepted now; match_stat! keeps to that discipline if its arms do."
  },
  {
   "property": "C65",
   "status": "proved",
   "theorems": [
    "C65_StatFlags",
    "C65_StatExists",
    "C65_bool",
    "C65_StatOnce",
    "C65_Prioritized",
    "C65_query",
    "C65_depends_only",
    "C65_StatInt_checked",
    "C65_StatInt_fits",
    "C65_StatIntPercentAdditive_checked",
    "C65_StatIntFraction_checked",
    "C65_StatInt_wrapping",
    "C65_StatIntPercentAdditive_fits",
    "C65_StatIntFraction_fits",
    "C65_StatIntPercent",
    "C65_StatFloat",
    "C65_StatFloat_exact",
    "C65_StatFloatAdditive",
    "C65_StatFloatAdditive_exact",
    "C65_StatMult",
    "C65_StatMult_exact",
    "C65_StatIntFloatMul_fits",
    "C65_StatIntFloatMul_exact",
    "C65_Fraction_StatFloat_checked",
    "C65_Fraction_StatFloat_fits",
    "C65_Fraction_StatFloatAdditive_checked",
    "C65_Fraction_StatFloatAdditive_fits",
    "C65_Fraction_StatMult_checked",
    "C65_Fraction_StatMult_fits"
   ],
   "note": "Composition of C05, C23, C27, C32, C47 and C58. C65_query is the general statement for every value type: the logs of the calls are turned into stories of values (S_EndToEnd.account, start: a separate reading of the logs that knows nothing of vectors, searches or buffers), and the answer is the worth of the starting story joined with the selected stories in order. C65_depends_only: entries that the query does not select, other entities and past queries do not matter. The remaining theorems give the totals in closed form for StatInt, StatIntPercentAdditive, StatIntFraction, StatIntPercent, StatFloat, StatFloatAdditive, StatMult and StatIntFloatMul, with C58 and C59's conditions on the contributions, for StatFloat, StatFloatAdditive and StatMult over Fraction exactly (C65_Fraction_*), and for StatFlags, StatExists, bool, StatOnce and Prioritized without conditions. Maps are streamed by components through StatMap's own StatStream implementation; other streams are covered by C32. No stat may have been patched without ever being given a default (C23 refutes the rest), and extend must have been given new keys, each once (C07 refutes the rest)."
  },
  {
   "property": "C66",
   "status": "proved",
   "theorems": [
    "C66_searches",
    "C66_sorts",
    "C66_any_order_safe",
    "C66_any_order_observers",
    "C66_queries_exact",
    "C66_lawful_order_same",
    "C66_caught_sort_panic_refuted",
    "C66_map_semantics_refuted",
    "C66_lawful_get_same",
    "C66_get_evaled"
   ],
   "note": "Proved for all programs, flags, orders and histories of calls; the binary search and the sort are any that keep std's contract for arbitrary closures (C66_searches and C66_sorts: std's old and new search, insertion and merge sort do). The two limits named in the statement are refuted: C66_caught_sort_panic_refuted, C66_map_semantics_refuted. C66_lawful_get_same and C66_get_evaled say what get and get_evaled return."
  },
  {
   "property": "C67",
   "status": "proved",
   "theorems": [
    "C67_alike_crates",
    "C67_cache_safe",
    "C67_cache_origin",
    "C67_defaults_safe",
    "C67_observers_same",
    "C67_pairs_return",
    "C67_invariant",
    "C67_never_shared",
    "C67_covariant",
    "C67_rigid",
    "C67_declared_refuted",
    "C67_tables_safe",
    "C67_tables_observers",
    "C67_pairs",
    "C67_same_as_map",
    "C67_several_tables_refuted",
    "C67_merged_refuted"
   ],
   "note": "False as stated in part (a) for the declared covariant StatVTable: refuted by C67_declared_refuted (a program the compiler accepts that reads a value at the wrong type). Proved: (a) under invariance (C67_invariant), and as declared for every type without proper subtypes (C67_covariant, C67_rigid); (b) for all crates, any tables in any call, merged tables of one value type, any order of the flags (C67_tables_safe, C67_tables_observers, C67_pairs). The logical errors the documentation mentions are exhibited: C67_several_tables_refuted, C67_merged_refuted. C67_observers_same and C67_pairs_return say what is read. The cache and the table of defaults under merged tables: C67_cache_safe, C67_cache_origin, C67_defaults_safe."
  },
  {
   "property": "C68",
   "status": "proved",
   "theorems": [
    "C68_queries_safe",
    "C68_entries_origin",
    "C68_hit_origin",
    "C68_drop_typed",
    "C68_dropped_once",
    "C68_lawful_same",
    "C68_answers_refuted",
    "C68_poison"
   ],
   "note": "Holds except for one part, which is false as expected and refuted: C68_answers_refuted (flags that compare equal get each other's answers). Proved: C68_queries_safe (no undefined behaviour for any behaviour of the flags' functions, any panics, any interleaving, queriers of different worlds sharing the cache), C68_entries_origin and C68_hit_origin (entries only for their entity and stat), C68_drop_typed, C68_dropped_once, C68_lawful_same (with lawful flags each step is the step of C57), C68_poison (exactly when the cache is poisoned). Assumed of std's hash table: a slot is taken only after its comparison returned true. Vtables of distinct stats are assumed distinct (C67)."
  },
  {
   "property": "C69",
   "status": "proved",
   "theorems": [
    "C69_accepts_iff",
    "C69_refused_iff",
    "C69_enum",
    "C69_ignored",
    "C69_value_given_refuted"
   ],
   "note": "False as stated in one part: refuted by C69_value_given_refuted (a value after an unknown name = value argument is reported missing). Proved: exactly which items are accepted and what is generated, exactly which complaint every other item gets, what is ignored, and that enums rustc accepts are accepted once a value is declared, with round trips decided as in C40."
  },
  {
   "property": "C70",
   "status": "proved",
   "theorems": [
    "C70_primitives",
    "C70_lengths",
    "C70_round_trip",
    "C70_history",
    "C70_injective",
    "C70_accepted_iff",
    "C70_returns",
    "C70_typed",
    "C70_one_spelling_refuted",
    "C70_counts_refuted",
    "C70_defined",
    "C70_put_defined",
    "C70_utf8",
    "C70_strings"
   ],
   "note": "False as stated in two parts: refuted by C70_one_spelling_refuted (padded lengths) and C70_counts_refuted (surplus elements read as the next entry). Proved: round trip with any rest and refusal of every proper beginning (C70_round_trip, C70_history, C70_primitives), injectivity, exactly which bytes are accepted (C70_lengths, C70_accepted_iff), that every byte string is answered with a map or an error, that loaded maps are typed, that neither reading nor writing is undefined in any world (C70_defined, C70_put_defined), and that the check of strings accepts exactly the encodings of Unicode scalar values (C70_utf8, C70_strings)."
  },
  {
   "property": "C71",
   "status": "proved",
   "theorems": [
    "C71_once",
    "C71_history",
    "C71_hit",
    "C71_miss",
    "C71_threads",
    "C71_threads_refuted",
    "C71_swapped_refuted"
   ],
   "note": "False as stated for racing threads: refuted (C71_threads_refuted: two threads both compute one question, since the lock is not held while computing), and for streams that replace the pair by another stat's (C71_swapped_refuted). Proved: code that does not clear the cache computes no question twice and none that is in the cache, after any history, up to a panic if there is one, and what it computed is stored when it ends (C71_once, C71_history); a cached question computes nothing and leaves the cache alone (C71_hit), an uncached one is computed (C71_miss); in any interleaving a finished thread computed nothing twice, so a question at most once per thread (C71_threads)."
  },
  {
   "property": "C72",
   "status": "proved",
   "theorems": [
    "C72_integers",
    "C72_floats",
    "C72_fields",
    "C72_variants",
    "C72_round_trip",
    "C72_no_prefix",
    "C72_returns",
    "C72_built_int",
    "C72_built_fraction",
    "C72_built_percent",
    "C72_built_float_mul",
    "C72_built_flags",
    "C72_built_once",
    "C72_built_prioritized",
    "C72_maps",
    "C72_bool_str",
    "C72_nothing_written",
    "C72_fraction_refuted",
    "C72_typeless_refuted"
   ],
   "note": "False as stated for equal fractions and for other types: refuted (C72_fraction_refuted: two byte strings of one number, reduced and not, load as stats of which one overflows; C72_typeless_refuted: bytes of a StatInt are read as a StatIntPercentAdditive with its fields exchanged, without an error). Proved: integers of every type, booleans and strings (exactly which bytes spell which value), both floats, structs and enums field by field and variant by variant, round trips whatever follows, truncations refused, different values never beginnings of each other, no panics, and read back for values with any history of operations and joins of every stat type; maps of them through C70."
  },
  {
   "property": "C73",
   "status": "proved",
   "theorems": [
    "C73_resources",
    "C73_defaults",
    "C73_defined",
    "C73_fresh",
    "C73_same",
    "C73_atomic_refuted",
    "C73_defaults_any",
    "C73_ub_iff"
   ],
   "note": "False as stated in its last sentence: refuted by C73_atomic_refuted (names registered before a clash stay). Proved: existence and content of every resource over histories whose calls may panic anywhere; the table of defaults is the map of insertions with patches as far as they came; no call but a query can have undefined behaviour; a cache filled by panicking queries is transparent; without panics the histories are those of C52. C73_defaults_any and C73_ub_iff drop the condition on patches: they say what the table holds after any calls and exactly when a history is undefined."
  },
  {
   "property": "C74",
   "status": "proved",
   "theorems": [
    "C74_same_means",
    "C74_contract",
    "C74_float",
    "C74_additive",
    "C74_mult",
    "C74_own",
    "C74_rounding",
    "C74_sign_refuted"
   ],
   "note": "Each call may use min and max of its own (reached_float, reached_additive, reached_mult); std's contract is stated over == and <= only. What the model computes is among what may come out (C74_own), and both choices exist (C74_contract). The sign itself does depend on the choice (C74_sign_refuted)."
  },
  {
   "property": "C75",
   "status": "proved",
   "theorems": [
    "C75_query_StatFlags",
    "C75_Fraction_StatFloat",
    "C75_Fraction_StatFloatAdditive",
    "C75_Fraction_StatMult",
    "C75_query_answers",
    "C75_query_StatIntRaised",
    "C75_query_StatIntPercentAdditive",
    "C75_query_StatIntFraction",
    "C75_query_StatFloat",
    "C75_query_StatFloatAdditive",
    "C75_query_StatMult",
    "C75_query_StatIntFloatMul",
    "C75_StatInt",
    "C75_wrapping_refuted",
    "C75_raise_refuted",
    "C75_percent_default_refuted",
    "C75_StatIntPercentAdditive",
    "C75_StatIntFraction",
    "C75_StatFloat",
    "C75_StatFloatAdditive",
    "C75_StatMult",
    "C75_StatIntFloatMul",
    "C75_query",
    "C75_query_StatInt"
   ],
   "note": "Proved for StatInt (overflow checks or saturating), StatIntPercentAdditive, StatIntFraction, StatFloat, StatFloatAdditive, StatMult and StatIntFloatMul, and for StatFloat, StatFloatAdditive and StatMult over Fraction (C75_Fraction_*, with overflow checks and operands in lowest terms), over all trees of operations and joins, and for queries of games (C75_query and C75_query_answers for every value type; spelled out for each of the binary and integer types in C75_query_*; C75_query_StatFlags: bits granted are never lost unless banned). The conditions are needed: C75_wrapping_refuted, C75_raise_refuted. StatIntPercent is left out since joining a default already changes it: C75_percent_default_refuted."
  },
  {
   "property": "C76",
   "status": "proved",
   "theorems": [
    "C76_operands",
    "C76_operations",
    "C76_operations_reflexive",
    "C76_operations_total",
    "C76_kinds",
    "C76_same_kind",
    "C76_nan_refuted",
    "C76_StatInt",
    "C76_StatIntPercentAdditive",
    "C76_StatIntPercent",
    "C76_StatIntFraction",
    "C76_StatFloat",
    "C76_StatFloatAdditive",
    "C76_StatMult",
    "C76_StatIntFloatMul",
    "C76_Fraction_StatFloat",
    "C76_Fraction_StatFloatAdditive",
    "C76_Fraction_StatMult",
    "C76_unreduced_refuted",
    "C76_int_operands",
    "C76_float_operands"
   ],
   "note": "C76_operations, C76_operations_reflexive, C76_operations_total: for every stat type, from the laws of the operands, which C76_operands proves for integers, bool, Unsupported, fractions with a positive denominator and floats. C76_kinds and C76_same_kind give the order itself. Equal values are interchangeable: C76_StatInt etc. for all the provided types that implement PartialEq, with fractions in lowest terms. The types without PartialEq (StatFlags, StatExists, StatOnce, Prioritized) have no such claim. False without conditions: an operation holding NaN does not equal itself (C76_nan_refuted), and fractions that are not in lowest terms, which documents and assignments through DerefMut can produce, are equal but overflow differently (C76_unreduced_refuted). The bounds of the derives (PartialOrd of StatOperation needs PartialOrd of the stat, which of the provided types only bool has) are not modelled."
  },
  {
   "property": "C77",
   "status": "proved",
   "theorems": [
    "C77_no_trace",
    "C77_derived",
    "C77_query",
    "C77_same_answers",
    "C77_other_names_refuted"
   ],
   "note": "C77_no_trace: for every life of a map, a list of calls, documents and bytes, it is lived through if and only if the calls alone return, with the same map. Savable is asked of what the map holds when it is saved; C77_derived derives it from the values that calls put in for derived implementations of serde (C62 and C72 prove that for the provided value types). C77_query and C77_same_answers carry this to games, over C65. All processes are runs of the same program with stats at the same addresses: C38 says what happens otherwise. False where names mean other stats in the process that loads: C77_other_names_refuted. Loading is driven by this crate's implementations; the formats are documents as in C38 and the bytes of postcard as in C70."
  },
  {
   "property": "C78",
   "status": "proved",
   "theorems": [
    "C78_no_trace",
    "C78_returns",
    "C78_while_it_lasts",
    "C78_same_answers",
    "C78_shared_key_refuted"
   ],
   "note": "Proved for maps built by any calls (C78_no_trace, C78_returns, C78_while_it_lasts) and for games with any number of temporary modifiers in their past, nested or not (C78_same_answers). Bulk insertion must only add new keys (fresh_history), since after it the map may hold a key twice: C07_remove_then_get_refuted. That no other call makes an entry under the key is needed: C78_shared_key_refuted."
  },
  {
   "property": "C79",
   "status": "proved",
   "theorems": [
    "C79_moved",
    "C79_agree",
    "C79_order_free_types",
    "C79_checked_types",
    "C79_saturating_refuted",
    "C79_float_refuted",
    "C79_checked_panic_refuted",
    "C79_Prioritized_refuted"
   ],
   "note": "False as stated: refuted for signed saturating integers (C79_saturating_refuted), floats (C79_float_refuted), overflow checks when only one order panics (C79_checked_panic_refuted) and Prioritized (C79_Prioritized_refuted). Proved for every value type that needs no order in the sense of C08 (C79_moved) and, if both return, of C09 (C79_agree); C79_order_free_types and C79_checked_types name the provided types: wrapping and release-mode integers, percentages, flags, bool, StatExists and StatOnce without condition, integers with overflow checks if both return."
  },
  {
   "property": "C80",
   "status": "proved",
   "theorems": [
    "C80_query",
    "C80_eval",
    "C80_follows",
    "C80_settles",
    "C80_StatInt_checked"
   ],
   "note": "A rule is code that may ask anything and returns operations (rule_stream applies them under is_then_cast). C80_query and C80_eval are equivalences: an answer exists exactly when the operations of all rules about the stat do and the value they lead to does not panic. C80_follows spells out rules that make one stat follow another; C80_settles needs a rank and that values and rules do not run forever by themselves; C80_StatInt_checked gives the total."
  },
  {
   "property": "C81",
   "status": "proved",
   "theorems": [
    "C81_more",
    "C81_StatInt",
    "C81_costs_refuted",
    "C81_more_at",
    "C81_StatInt_at"
   ],
   "note": "C81_more is for any value types whose results keep the order of improvements (pays, which C75 proves for each); C81_StatInt for StatInt that checks or saturates. Both answers must exist. C81_costs_refuted: a rule that takes away health for constitution, where more constitution means less health. C81_more_at and C81_StatInt_at rank questions instead of stats, so that rules may ask for the stat they are about, of another entity or for another qualifier."
  },
  {
   "property": "C82",
   "status": "proved",
   "theorems": [
    "C82_reordered",
    "C82_order_free_types",
    "C82_agree",
    "C82_checked_types",
    "C82_base_refuted",
    "C82_reordered_at",
    "C82_order_free_types_at",
    "C82_agree_at",
    "C82_checked_types_at"
   ],
   "note": "C82_reordered is an equivalence for value types that are order_free (C08); C82_agree needs both answers for those that may panic (C09); the _types theorems name the provided types. The games may differ in anything that keeps the causes of every entity the same up to order. C82_base_refuted: a rule that sets a base. The theorems ending in _at rank questions instead of stats, so that rules may ask for the stat they are about, of another entity or for another qualifier."
  },
  {
   "property": "C83",
   "status": "proved",
   "theorems": [
    "C83_unaffected"
   ],
   "note": "The questions looked at are any set closed under what the rules about their stats ask (self_contained). ends covers panics, not only answers. Two cases: a rule that makes health follow from itself, which leaves constitution as it was, and entries for a qualifier that is not asked for."
  },
  {
   "property": "C84",
   "status": "proved",
   "theorems": [
    "C84_depth",
    "C84_grounded"
   ],
   "note": "Gives the bound that C80_settles leaves open: rank + 1. The case shows that it is reached: one less is not enough."
  },
  {
   "property": "C85",
   "status": "proved",
   "theorems": [
    "C85_relation",
    "C85_eval",
    "C85_unmarked"
   ],
   "note": "Relation components are those that hold a StatMap each and stream operations on one stat, worked out by arbitrary code from the two maps (tied). The case reads the level of one and the constitution of the other, in both directions."
  },
  {
   "property": "C86",
   "status": "proved",
   "theorems": [
    "C86_query",
    "C86_relation",
    "C86_query_types",
    "C86_relation_types"
   ],
   "note": "C86_query and C86_relation are generic in the value type; C86_query_types and C86_relation_types are about the five types with integer bounds and assume nothing of how values are evaluated. The upper bound is stated with the greatest contributed minimum, which wins over a maximum in eval."
  },
  {
   "property": "C87",
   "status": "proved",
   "theorems": [
    "C87_exists",
    "C87_unique",
    "C87_answers",
    "C87_any_rules_refuted"
   ],
   "note": "Books give a value, no value or a panic for every question about stats. C80_query says what an answer is in terms of the answers of the same querier; this says that no other answers fit, so that the specification (foretold, solves) determines them. Rank may depend on the entity and the qualifier too, so that a rule may ask for its own stat of another entity; C84_grounded is C84 for such ranks. C87_any_rules_refuted shows that a ranking is needed: rules in a circle can have many solutions, and queries then have no answer."
  }
 ]
}