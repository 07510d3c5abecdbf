{
 "claims": [
  {
   "property": "C01",
   "status": "proved",
   "theorems": [
    "C01_map_get_exact"
   ],
   "note": "All key classes and representations. With overflow checks any size; without them fewer than 2^32 entries (C42 shows the bound is needed)."
  },
  {
   "property": "C02",
   "status": "proved",
   "theorems": [
    "C02_map_lookups_agree"
   ],
   "note": "For u32 keys with duplicates spanning exactly as many integers as entries the stored key may differ from the queried one (see C09)."
  },
  {
   "property": "C03",
   "status": "proved",
   "theorems": [
    "C03_map_content"
   ],
   "note": ""
  },
  {
   "property": "C04",
   "status": "proved",
   "theorems": [
    "C04_map_new_other_total"
   ],
   "note": "The set facade is covered by C06_set_new_total."
  },
  {
   "property": "C05",
   "status": "proved",
   "theorems": [
    "C05_map_new_u32_total"
   ],
   "note": "The set facade is covered by C06_set_new_total."
  },
  {
   "property": "C06",
   "status": "proved",
   "theorems": [
    "C06_map_new_string_outcome",
    "C06_set_new_total",
    "C06_string_construction_ub_refuted",
    "C06_string_construction_panic_refuted"
   ],
   "note": "Complete description of which payloads are built, which panic and which cause undefined behaviour; two refutations of unconditional safety."
  },
  {
   "property": "C07",
   "status": "proved",
   "theorems": [
    "C07_right_slice_forward_unusable",
    "C07_right_slice_reversed_exact"
   ],
   "note": ""
  },
  {
   "property": "C08",
   "status": "proved",
   "theorems": [
    "C08_left_slice_exact",
    "C08_left_slice_short_key_ub"
   ],
   "note": ""
  },
  {
   "property": "C09",
   "status": "proved",
   "theorems": [
    "C09_map_get_duplicates",
    "C09_duplicate_u32_phantom_refuted"
   ],
   "note": "Refuted for u32 keys with a witness."
  },
  {
   "property": "C10",
   "status": "proved",
   "theorems": [
    "C10_map_write"
   ],
   "note": "References are modelled as positions in the entry table."
  },
  {
   "property": "C11",
   "status": "proved",
   "theorems": [
    "C11_map_get_many_mut"
   ],
   "note": "References are modelled as positions; the transmute and uninitialized array inside the function are not modelled as such."
  },
  {
   "property": "C12",
   "status": "proved",
   "theorems": [
    "C12_get_many_mut_aliases_refuted"
   ],
   "note": "Witness given inside the theorem."
  },
  {
   "property": "C13",
   "status": "proved",
   "theorems": [
    "C13_map_index"
   ],
   "note": ""
  },
  {
   "property": "C14",
   "status": "proved",
   "theorems": [
    "C14_map_eq_extensional",
    "C14_map_eq_equivalence",
    "C14_map_eq_not_symmetric_refuted"
   ],
   "note": ""
  },
  {
   "property": "C15",
   "status": "proved",
   "theorems": [
    "C15_hash_table_memory_safe",
    "C15_common_map_memory_safe"
   ],
   "note": ""
  },
  {
   "property": "C16",
   "status": "proved",
   "theorems": [
    "C16_lookup_range_exact"
   ],
   "note": ""
  },
  {
   "property": "C17",
   "status": "proved",
   "theorems": [
    "C17_table_size_sound",
    "C17_table_size_empty"
   ],
   "note": ""
  },
  {
   "property": "C18",
   "status": "proved",
   "theorems": [
    "C18_table_size_small"
   ],
   "note": ""
  },
  {
   "property": "C19",
   "status": "proved",
   "theorems": [
    "C19_table_size_total",
    "C19_candidate_list_total",
    "C19_analysis_no_overflow"
   ],
   "note": ""
  },
  {
   "property": "C20",
   "status": "proved",
   "theorems": [
    "C20_primality_test",
    "C20_float_sqrt"
   ],
   "note": "The f64 square root is modelled with its rounding."
  },
  {
   "property": "C21",
   "status": "proved",
   "theorems": [
    "C21_int_range_detection",
    "C21_int_range_overflow",
    "C21_duplicate_range_detection_refuted"
   ],
   "note": "See C43 for the full domain."
  },
  {
   "property": "C22",
   "status": "proved",
   "theorems": [
    "C22_range_map_contract",
    "C22_empty_range_map_panics",
    "C22_duplicate_range_map_refuted"
   ],
   "note": ""
  },
  {
   "property": "C23",
   "status": "proved",
   "theorems": [
    "C23_length_representation"
   ],
   "note": ""
  },
  {
   "property": "C24",
   "status": "proved",
   "theorems": [
    "C24_subslice_choice"
   ],
   "note": ""
  },
  {
   "property": "C25",
   "status": "proved",
   "theorems": [
    "C25_five_percent",
    "C25_float_rounding"
   ],
   "note": ""
  },
  {
   "property": "C26",
   "status": "proved",
   "theorems": [
    "C26_map_iterators_exact"
   ],
   "note": ""
  },
  {
   "property": "C27",
   "status": "proved",
   "theorems": [
    "C27_set_iterators_exact",
    "C27_into_iter_is_exact",
    "C27_set_count_refuted"
   ],
   "note": "count() after partial consumption is refuted."
  },
  {
   "property": "C28",
   "status": "proved",
   "theorems": [
    "C28_union_exact"
   ],
   "note": "std HashSet and BTreeSet are assumed to satisfy lawful_set."
  },
  {
   "property": "C29",
   "status": "proved",
   "theorems": [
    "C29_intersection_exact"
   ],
   "note": ""
  },
  {
   "property": "C30",
   "status": "proved",
   "theorems": [
    "C30_difference_exact",
    "C30_symmetric_difference_exact"
   ],
   "note": ""
  },
  {
   "property": "C31",
   "status": "proved",
   "theorems": [
    "C31_size_hints_hold",
    "C31_union_size_hint_refuted"
   ],
   "note": "The stale hint of a partly consumed union is refuted."
  },
  {
   "property": "C32",
   "status": "proved",
   "theorems": [
    "C32_set_relations",
    "C32_subset_duplicates_refuted"
   ],
   "note": ""
  },
  {
   "property": "C33",
   "status": "proved",
   "theorems": [
    "C33_set_eq_extensional",
    "C33_set_eq_equivalence",
    "C33_frozen_set_eq_extensional"
   ],
   "note": ""
  },
  {
   "property": "C34",
   "status": "proved",
   "theorems": [
    "C34_frozen_set_exact",
    "C34_frozen_set_lawful"
   ],
   "note": ""
  },
  {
   "property": "C35",
   "status": "proved",
   "theorems": [
    "C35_set_operators"
   ],
   "note": "The resulting HashSet is modelled as a duplicate-free list."
  },
  {
   "property": "C36",
   "status": "proved",
   "theorems": [
    "C36_macro_int",
    "C36_macro_str",
    "C36_macro_other",
    "C36_macro_range_refuted",
    "C36_macro_panic_refuted"
   ],
   "note": "Complete description of the outcomes; the claim as an unconditional one is refuted twice. Parsing of macro arguments: C57."
  },
  {
   "property": "C37",
   "status": "proved",
   "theorems": [
    "C37_map_default_empty",
    "C37_set_default_empty"
   ],
   "note": "No hypotheses."
  },
  {
   "property": "C38",
   "status": "proved",
   "theorems": [
    "C38_history_refinement"
   ],
   "note": ""
  },
  {
   "property": "C39",
   "status": "proved",
   "theorems": [
    "C39_map_no_type_confusion",
    "C39_set_no_type_confusion"
   ],
   "note": "type_name is assumed to identify u32 and String."
  },
  {
   "property": "C40",
   "status": "proved",
   "theorems": [
    "C40_capacity_sufficient",
    "C40_capacity_exceeded",
    "C40_wide_index_panics",
    "C40_checked_size_limit",
    "C40_left_slice_capacity_exceeded"
   ],
   "note": ""
  },
  {
   "property": "C41",
   "status": "proved",
   "theorems": [
    "C41_scanning_map_exact",
    "C41_common_map_exact",
    "C41_integer_map_exact",
    "C41_length_map_exact"
   ],
   "note": "Left and right slice maps: C07, C08; range map: C22."
  },
  {
   "property": "C42",
   "status": "proved",
   "theorems": [
    "C42_huge_map_loses_entries_refuted"
   ],
   "note": "Refutation of exactness for maps of 2^32 entries compiled without overflow checks; the witness is inside the theorem."
  },
  {
   "property": "C43",
   "status": "proved",
   "theorems": [
    "C43_int_range_wrapping",
    "C43_int_range_checked"
   ],
   "note": ""
  },
  {
   "property": "C44",
   "status": "proved",
   "theorems": [
    "C44_scanning_map_history",
    "C44_common_map_history",
    "C44_integer_map_history",
    "C44_range_map_history",
    "C44_length_map_history",
    "C44_left_slice_map_history",
    "C44_right_slice_map_history"
   ],
   "note": ""
  },
  {
   "property": "C45",
   "status": "proved",
   "theorems": [
    "C45_scanning_map_eq",
    "C45_common_map_eq",
    "C45_integer_map_eq",
    "C45_range_map_eq",
    "C45_length_map_eq",
    "C45_left_slice_map_eq",
    "C45_right_slice_map_eq"
   ],
   "note": ""
  },
  {
   "property": "C46",
   "status": "proved",
   "theorems": [
    "C46_scanning_set_exact",
    "C46_scanning_set_lawful",
    "C46_common_set_exact",
    "C46_common_set_lawful",
    "C46_integer_set_exact",
    "C46_integer_set_lawful",
    "C46_range_set_exact",
    "C46_range_set_lawful",
    "C46_length_set_exact",
    "C46_length_set_lawful",
    "C46_left_slice_set_exact",
    "C46_left_slice_set_lawful",
    "C46_right_slice_set_exact",
    "C46_right_slice_set_lawful"
   ],
   "note": "An empty range set is excluded: contains(&0) panics on it (C22)."
  },
  {
   "property": "C47",
   "status": "proved",
   "theorems": [
    "C47_table_size_choice",
    "C47_table_size_eight"
   ],
   "note": ""
  },
  {
   "property": "C48",
   "status": "proved",
   "theorems": [
    "C48_observations_determined"
   ],
   "note": ""
  },
  {
   "property": "C49",
   "status": "proved",
   "theorems": [
    "C49_map_lookup_cost",
    "C49_small_map_one_comparison",
    "C49_eight_keys_refuted"
   ],
   "note": ""
  },
  {
   "property": "C50",
   "status": "proved",
   "theorems": [
    "C50_map_debug",
    "C50_specialized_map_debug",
    "C50_set_debug",
    "C50_iterators_debug",
    "C50_set_operations_debug",
    "C50_set_debug_refuted"
   ],
   "note": "Output is the sequence of calls on the standard debug builders."
  },
  {
   "property": "C51",
   "status": "proved",
   "theorems": [
    "C51_set_operation_laws"
   ],
   "note": ""
  },
  {
   "property": "C52",
   "status": "proved",
   "theorems": [
    "C52_iteration_order"
   ],
   "note": ""
  },
  {
   "property": "C53",
   "status": "proved",
   "theorems": [
    "C53_frozen_set_algebra"
   ],
   "note": ""
  },
  {
   "property": "C54",
   "status": "proved",
   "theorems": [
    "C54_set_operation_sequences"
   ],
   "note": ""
  },
  {
   "property": "C55",
   "status": "proved",
   "theorems": [
    "C55_map_constructors",
    "C55_set_constructors"
   ],
   "note": ""
  },
  {
   "property": "C56",
   "status": "proved",
   "theorems": [
    "C56_map_round_trip",
    "C56_map_round_trip_refuted",
    "C56_set_from_operation"
   ],
   "note": ""
  },
  {
   "property": "C57",
   "status": "proved",
   "theorems": [
    "C57_macro_call_written",
    "C57_macro_call_understood"
   ],
   "note": "The parsers of syn for types and expressions are parameters."
  },
  {
   "property": "C58",
   "status": "proved",
   "theorems": [
    "C58_macro_int_history",
    "C58_macro_str_history",
    "C58_macro_other_history"
   ],
   "note": ""
  },
  {
   "property": "C59",
   "status": "proved",
   "theorems": [
    "C59_stored_lookup_cost"
   ],
   "note": ""
  },
  {
   "property": "C60",
   "status": "proved",
   "theorems": [
    "C60_macro_literals"
   ],
   "note": ""
  },
  {
   "property": "C61",
   "status": "proved",
   "theorems": [
    "C61_set_expression_values",
    "C61_set_expression_relations",
    "C61_set_expression_laws",
    "C61_frozen_sets_in_expressions"
   ],
   "note": ""
  },
  {
   "property": "C62",
   "status": "proved",
   "theorems": [
    "C62_specialized_map_constructors",
    "C62_specialized_set_constructors"
   ],
   "note": ""
  },
  {
   "property": "C63",
   "status": "proved",
   "theorems": [
    "C63_set_macro_unfinished"
   ],
   "note": "The macro is not exported by frozen-collections-macros."
  },
  {
   "property": "C64",
   "status": "proved",
   "theorems": [
    "C64_get_many_mut_memory"
   ],
   "note": "References are positions in the entries; the transmute of & to &mut is the subject of C74."
  },
  {
   "property": "C65",
   "status": "proved",
   "theorems": [
    "C65_analysis_steps"
   ],
   "note": ""
  },
  {
   "property": "C66",
   "status": "proved",
   "theorems": [
    "C66_history_never_goes_wrong"
   ],
   "note": "2^64 bounds the length of any Vec."
  },
  {
   "property": "C67",
   "status": "proved",
   "theorems": [
    "C67_slice_analysis_steps"
   ],
   "note": ""
  },
  {
   "property": "C68",
   "status": "proved",
   "theorems": [
    "C68_operations_on_iterators",
    "C68_operations_run",
    "C68_library_iterators"
   ],
   "note": ""
  },
  {
   "property": "C69",
   "status": "proved",
   "theorems": [
    "C69_set_observations_determined",
    "C69_reordered_operations",
    "C69_reordered_operators"
   ],
   "note": ""
  },
  {
   "property": "C70",
   "status": "proved",
   "theorems": [
    "C70_set_use_never_goes_wrong",
    "C70_operations_without_laws"
   ],
   "note": "The operators, which collect into a std HashSet, are in C35."
  },
  {
   "property": "C71",
   "status": "proved",
   "theorems": [
    "C71_volatile_history_never_goes_wrong",
    "C71_volatile_construction",
    "C71_volatile_construction_panics",
    "C71_volatile_construction_right",
    "C71_volatile_equality",
    "C71_regular_agrees",
    "C71_regular_equality"
   ],
   "note": "Undefined behaviour inside the foreign code itself is excluded; aliasing in get_many_mut is the subject of C12 and C74."
  },
  {
   "property": "C72",
   "status": "proved",
   "theorems": [
    "C72_construction_calls",
    "C72_lookup_calls",
    "C72_many_calls",
    "C72_comparisons_counted"
   ],
   "note": ""
  },
  {
   "property": "C73",
   "status": "proved",
   "theorems": [
    "C73_volatile_set_use",
    "C73_volatile_set_construction",
    "C73_volatile_set_operations",
    "C73_volatile_operations",
    "C73_notes_change_nothing",
    "C73_regular_operations",
    "C73_regular_set_agrees"
   ],
   "note": "Undefined behaviour inside the foreign code itself is excluded."
  },
  {
   "property": "C74",
   "status": "proved",
   "theorems": [
    "C74_references_usable",
    "C74_references_found",
    "C74_many_mut_unwritable",
    "C74_many_mut_write_refuted"
   ],
   "note": "The rules are those of Stacked Borrows for one allocation, without retagging on transmute; with it the breach would come earlier."
  },
  {
   "property": "C75",
   "status": "proved",
   "theorems": [
    "C75_names_decide",
    "C75_same_name_refuted"
   ],
   "note": "Assumes the names that the compiler gives to u32 and String; all other theorems about FrozenMap and FrozenSet assume that no third type has one of these names."
  },
  {
   "property": "C76",
   "status": "proved",
   "theorems": [
    "C76_special_construction",
    "C76_special_history_never_goes_wrong",
    "C76_special_equality",
    "C76_slice_hash_outcome",
    "C76_special_regular",
    "C76_special_regular_integer",
    "C76_special_regular_slices"
   ],
   "note": "Undefined behaviour inside the foreign code itself is excluded, also inside the implementations of SliceHash of this library; for these see C07 and C08."
  },
  {
   "property": "C77",
   "status": "proved",
   "theorems": [
    "C77_set_construction_calls",
    "C77_set_lookup_calls",
    "C77_set_operation_calls",
    "C77_set_operation_counts",
    "C77_recorded_operations"
   ],
   "note": ""
  },
  {
   "property": "C78",
   "status": "proved",
   "theorems": [
    "C78_clone_copies",
    "C78_owned_history_never_goes_wrong",
    "C78_owned_lookup_calls",
    "C78_faithful_clone",
    "C78_clone_equals_original",
    "C78_set_clone_copies",
    "C78_owned_set_use",
    "C78_clone_finds_the_same_refuted"
   ],
   "note": "The derived implementations are modelled as the language defines them: field by field in the order of declaration."
  },
  {
   "property": "C79",
   "status": "proved",
   "theorems": [
    "C79_lawful_map_history",
    "C79_lawful_map_equality",
    "C79_lawful_set_items",
    "C79_lawful_special_history",
    "C79_lawful_special_equality"
   ],
   "note": "Answers of code without side effects are a special case; C71, C73 and C76 show that the answers are then those of the functional model, lawful or not."
  },
  {
   "property": "C80",
   "status": "proved",
   "theorems": [
    "C80_special_construction_calls"
   ],
   "note": ""
  },
  {
   "property": "C81",
   "status": "proved",
   "theorems": [
    "C81_special_set_use",
    "C81_special_set_operations",
    "C81_lawful_special_set",
    "C81_lawful_special_serves",
    "C81_lawful_frozen_set_serves",
    "C81_lawful_volatile_operations"
   ],
   "note": "The range set follows in C82. One type covers the hashers of both sets; for two types it is their sum."
  },
  {
   "property": "C82",
   "status": "proved",
   "theorems": [
    "C82_range_construction",
    "C82_range_lookups",
    "C82_range_equality",
    "C82_range_history_never_goes_wrong",
    "C82_lawful_range_history",
    "C82_lawful_range_rejects",
    "C82_lawful_empty_range",
    "C82_lawful_range_equality",
    "C82_range_set_use",
    "C82_range_set_operand",
    "C82_special_set_operand",
    "C82_operand_operations",
    "C82_lawful_range_serves"
   ],
   "note": "The sort of the standard library is a parameter; sorter_ok says what is assumed of it."
  },
  {
   "property": "C83",
   "status": "proved",
   "theorems": [
    "C83_iterator_programs",
    "C83_operation_programs"
   ],
   "note": "[count] of a set iterator is wrong after a call of [next] (C27); the statement says what it returns."
  },
  {
   "property": "C84",
   "status": "proved",
   "theorems": [
    "C84_special_references",
    "C84_facade_references"
   ],
   "note": "The rules are those of C74."
  },
  {
   "property": "C85",
   "status": "proved",
   "theorems": [
    "C85_lengths",
    "C85_length_map_of_values",
    "C85_length_map_of_pointers",
    "C85_length_set_of_values"
   ],
   "note": "[==] of the types of the standard library is assumed to be what LenSpec.v says."
  },
  {
   "property": "C86",
   "status": "proved",
   "theorems": [
    "C86_special_clone_copies",
    "C86_range_clone_copies",
    "C86_special_set_clone_copies",
    "C86_range_set_clone_copies",
    "C86_owned_special_never_goes_wrong",
    "C86_owned_special_equality",
    "C86_any_range_equality",
    "C86_owned_range_never_goes_wrong",
    "C86_owned_special_set_use",
    "C86_owned_range_set_use",
    "C86_faithful_special_clone",
    "C86_faithful_special_clone_equal",
    "C86_faithful_range_clone",
    "C86_lawful_special_equality_owned",
    "C86_lawful_range_equality_owned",
    "C86_faithful_range_clone_equal",
    "C86_faithful_special_set_clone",
    "C86_faithful_special_set_serves",
    "C86_faithful_range_set_clone",
    "C86_faithful_special_set_equal",
    "C86_faithful_range_set_equal"
   ],
   "note": ""
  },
  {
   "property": "C87",
   "status": "proved",
   "theorems": [
    "C87_lawful_clone_history",
    "C87_lawful_clone_equality",
    "C87_lawful_clone_equals_original",
    "C87_lawful_clone_set",
    "C87_lawful_clone_set_equal"
   ],
   "note": ""
  },
  {
   "property": "C88",
   "status": "proved",
   "theorems": [
    "C88_hash_set_operand",
    "C88_btree_set_operand",
    "C88_frozen_and_std_sets"
   ],
   "note": ""
  },
  {
   "property": "C89",
   "status": "proved",
   "theorems": [
    "C89_analysis_sees_collisions",
    "C89_string_construction_alike"
   ],
   "note": ""
  },
  {
   "property": "C90",
   "status": "proved",
   "theorems": [
    "C90_slice_tests",
    "C90_hash_code_tests",
    "C90_int_key_tests",
    "C90_common_map_tests",
    "C90_integer_map_tests",
    "C90_length_map_tests",
    "C90_scanning_map_tests",
    "C90_range_map_tests",
    "C90_map_facade_tests",
    "C90_u32_facade_test",
    "C90_set_facade_test",
    "C90_macro_tests"
   ],
   "note": "The case of 8,000,000 random hash codes is left out."
  },
  {
   "property": "C91",
   "status": "proved",
   "theorems": [
    "C91_map_documentation",
    "C91_library_references",
    "C91_set_documentation",
    "C91_common_set_documentation",
    "C91_algebra_documentation"
   ],
   "note": "What println! writes is not modelled beyond the items and their number."
  },
  {
   "property": "C92",
   "status": "proved",
   "theorems": [
    "C92_scanning_map_walks",
    "C92_common_map_walks",
    "C92_integer_map_walks",
    "C92_range_map_walks",
    "C92_length_map_walks",
    "C92_slice_map_walks",
    "C92_special_set_walks"
   ],
   "note": "2^64 bounds the length of any Vec. The iterators of the standard library wrapped by into_iter are modelled as lists of items to come."
  },
  {
   "property": "C93",
   "status": "proved",
   "theorems": [
    "C93_emitted_code",
    "C93_emitted_code_agrees"
   ],
   "note": "Types and expressions of the caller are single tokens; of the type check only the number of generic arguments, the arguments of from_vec and the annotated type are modelled."
  },
  {
   "property": "C94",
   "status": "proved",
   "theorems": [
    "C94_benchmark_programs",
    "C94_benchmark_hash_map"
   ],
   "note": "HashMap::from is the last entry for each key. Timing, black_box and criterion are not modelled."
  },
  {
   "property": "C95",
   "status": "proved",
   "theorems": [
    "C95_integer_call_runs",
    "C95_string_call_runs",
    "C95_other_call_runs",
    "C95_call_output"
   ],
   "note": "The parsers of syn for types and expressions are parameters that read the text back. Of rustc these checks are modelled: the type called exists, number of generic arguments, arguments of from_vec, annotated type, type of the keys."
  },
  {
   "property": "C96",
   "status": "proved",
   "theorems": [
    "C96_repeated_scanning",
    "C96_repeated_common",
    "C96_repeated_integer",
    "C96_repeated_length",
    "C96_repeated_left_slice",
    "C96_repeated_right_slice",
    "C96_repeated_frozen_map",
    "C96_repeated_integer_call",
    "C96_repeated_string_call",
    "C96_repeated_other_call"
   ],
   "note": "With equal u32 keys that fill a range see C09; IntegerRangeMap rejects repeated keys unless they fill a range (C22)."
  },
  {
   "property": "C97",
   "status": "proved",
   "theorems": [
    "C97_range_map_by_place",
    "C97_range_map_strangers",
    "C97_frozen_map_by_place",
    "C97_filled_range_set",
    "C97_range_map_domain"
   ],
   "note": "For the empty IntegerRangeMap see C22."
  },
  {
   "property": "C98",
   "status": "proved",
   "theorems": [
    "C98_repeated_set_comparisons",
    "C98_repeated_set_eq_laws",
    "C98_repeated_frozen_set",
    "C98_filled_frozen_set",
    "C98_repeated_map_eq",
    "C98_repeated_map_eq_self",
    "C98_repeated_scanning_eq",
    "C98_repeated_common_eq_self",
    "C98_repeated_integer_eq_self",
    "C98_repeated_length_eq_self",
    "C98_repeated_left_slice_eq_self",
    "C98_repeated_right_slice_eq_self",
    "C98_filled_range_map_eq",
    "C98_repeated_map_eq_not_reflexive_refuted",
    "C98_repeated_set_eq_not_symmetric_refuted"
   ],
   "note": "The set operations on sets with repetitions are C54, the operators C35."
  }
 ]
}