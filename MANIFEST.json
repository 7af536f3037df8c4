{
 "claims": [
  {
   "property": "C01",
   "status": "proved",
   "theorems": [
    "C01_enum_round_trip"
   ],
   "note": ""
  },
  {
   "property": "C02",
   "status": "proved",
   "theorems": [
    "C02_parse_enum_exact"
   ],
   "note": ""
  },
  {
   "property": "C03",
   "status": "proved",
   "theorems": [
    "C03_enum_to_string_total_on_listed"
   ],
   "note": ""
  },
  {
   "property": "C04",
   "status": "proved",
   "theorems": [
    "C04_char_sets_exact",
    "C04_reserved_characters",
    "C04_enum_metadata_accepted_iff"
   ],
   "note": ""
  },
  {
   "property": "C05",
   "status": "partial",
   "theorems": [
    "C05_flags_round_trip_refuted",
    "C05_flags_round_trip_partial",
    "C05_pairs_suffice",
    "C05_single_flags_suffice_refuted"
   ],
   "note": "Full claim is false of the code (flag names may contain delimiters or outer blanks); refuted by witness, proved for names without them. For all other accepted names: the combinations of at most two flags decide for all combinations, and the single flags do not."
  },
  {
   "property": "C06",
   "status": "proved",
   "theorems": [
    "C06_flags_to_string_canonical"
   ],
   "note": ""
  },
  {
   "property": "C07",
   "status": "proved",
   "theorems": [
    "C07_parse_flags_grammar"
   ],
   "note": ""
  },
  {
   "property": "C08",
   "status": "proved",
   "theorems": [
    "C08_flags_metadata_reordering",
    "C08_flags_metadata_accepted_iff"
   ],
   "note": ""
  },
  {
   "property": "C09",
   "status": "proved",
   "theorems": [
    "C09_extract_enum_exact"
   ],
   "note": ""
  },
  {
   "property": "C10",
   "status": "partial",
   "theorems": [
    "C10_extract_flags_failed_stream_refuted",
    "C10_extract_flags_exact_partial"
   ],
   "note": "The clause about streams that have already failed is false of the code (v becomes zero); refuted, everything else proved."
  },
  {
   "property": "C11",
   "status": "proved",
   "theorems": [
    "C11_enum_sequences_read_back",
    "C11_leading_vertical_tab_refuted"
   ],
   "note": "A further theorem shows that the condition on leading vertical tabs is necessary."
  },
  {
   "property": "C12",
   "status": "partial",
   "theorems": [
    "C12_sound_same_type_partial",
    "C12_sound_representable_partial",
    "C12_sound_other_types",
    "C12_sound_unordered_types",
    "C12_narrowing_refuted",
    "C12_converted"
   ],
   "note": "Soundness proved for arrays of the value's own type (all integral/enum types), for arrays of another integral type whose values are representable in the value's type, and for all other element types whose < is trichotomous (unordered: unconditionally). The unconditional claim is refuted: constants are narrowed to the runtime type without a check. C12_converted holds without conditions: the chosen constant, converted to the type of the value, is the value."
  },
  {
   "property": "C13",
   "status": "partial",
   "theorems": [
    "C13_exact_partial",
    "C13_exact_narrow",
    "C13_repeated_ill_formed",
    "C13_wraparound_refuted",
    "C13_overflow_refuted",
    "C13_largest_inside_refuted",
    "C13_characterised"
   ],
   "note": "Exact behaviour (found iff listed; nullopt/exception/fail-fast otherwise; never UB) proved for all widths, provided the type's largest value is not listed before the last position and, for signed types at least as wide as int with consecutive constants, value minus first constant is representable; no condition for types narrower than int. Without these conditions refuted by three witnesses (wrap-around, signed overflow, compile-time rejection). C13_characterised says what happens for every list of distinct constants of the type of the value, without side conditions."
  },
  {
   "property": "C14",
   "status": "partial",
   "theorems": [
    "C14_consistent_order",
    "C14_floating_point_partial",
    "C14_nan_value_refuted",
    "C14_nan_listed_refuted",
    "C14_nan_value_chosen",
    "C14_unsorted_exact"
   ],
   "note": "Exact behaviour for every consistent strict weak order, including IEEE floating point without NaN; refuted with a NaN runtime value or a listed NaN. A NaN value chooses the second of two or more constants that count as sorted, and lookups in other lists are exact even with NaN."
  },
  {
   "property": "C15",
   "status": "partial",
   "theorems": [
    "C15_reflected_values_partial",
    "C15_unreflected_values_partial",
    "C15_parse_then_expand_partial",
    "C15_wraparound_refuted",
    "C15_no_metadata_rejected"
   ],
   "note": "Reflected values are found, unreflected ones reported, and parse followed by expand selects the named constant, under the side conditions of C13; refuted without them (wrap-around)."
  },
  {
   "property": "C16",
   "status": "proved",
   "theorems": [
    "C16_rejected",
    "C16_contract",
    "C16_variant_transform",
    "C16_valueless",
    "C16_visit"
   ],
   "note": "Value categories of the arguments are not distinguished."
  },
  {
   "property": "C17",
   "status": "proved",
   "theorems": [
    "C17_enumeration",
    "C17_too_many",
    "C17_result_type",
    "C17_well_formed"
   ],
   "note": ""
  },
  {
   "property": "C18",
   "status": "proved",
   "theorems": [
    "C18_rejected",
    "C18_variant_transform_many",
    "C18_result_type",
    "C18_well_formed",
    "C18_valueless"
   ],
   "note": ""
  },
  {
   "property": "C19",
   "status": "proved",
   "theorems": [
    "C19_unique_sequence",
    "C19_filter_sequence",
    "C19_type_sequence_cat"
   ],
   "note": ""
  },
  {
   "property": "C20",
   "status": "partial",
   "theorems": [
    "C20_search_type_pack_index",
    "C20_type_pack_index",
    "C20_search_tuple_element_index",
    "C20_search_first_tuple_element_index",
    "C20_is_in",
    "C20_equal_types",
    "C20_is_in_v_refuted",
    "C20_nth_type"
   ],
   "note": "All lookups are exact except is_in_v<>, which drops its list and is always false (refuted)."
  },
  {
   "property": "C21",
   "status": "proved",
   "theorems": [
    "C21_sizes_agree",
    "C21_nothing_known",
    "C21_sizes_differ",
    "C21_order_irrelevant"
   ],
   "note": ""
  },
  {
   "property": "C22",
   "status": "proved",
   "theorems": [
    "C22_zip_iterates",
    "C22_tuples",
    "C22_size_unknown",
    "C22_size_mismatch"
   ],
   "note": "Ranges of equal length; other lengths are C25."
  },
  {
   "property": "C23",
   "status": "proved",
   "theorems": [
    "C23_iterator_laws"
   ],
   "note": ""
  },
  {
   "property": "C24",
   "status": "partial",
   "theorems": [
    "C24_from_the_end_partial",
    "C24_from_the_end_refuted"
   ],
   "note": "Proved unless a sized non-contiguous container (std::deque, std::list) takes part; refuted for those: end() refers to their first element."
  },
  {
   "property": "C25",
   "status": "partial",
   "theorems": [
    "C25_equal_lengths",
    "C25_lengths_differ",
    "C25_known_sizes_differ",
    "C25_index_arguments",
    "C25_range_zip_refuted",
    "C25_index_arguments_refuted",
    "C25_elements_exist",
    "C25_out_of_bounds"
   ],
   "note": "Proved for range_for (and the other algorithms, C27/C28) with any known size or at most two range_index arguments; refuted for range_zip with equal iterator types, which overruns a shorter unsized range, and for three trailing range_index arguments, which do not compile."
  },
  {
   "property": "C26",
   "status": "proved",
   "theorems": [
    "C26_weakest_category"
   ],
   "note": ""
  },
  {
   "property": "C27",
   "status": "proved",
   "theorems": [
    "C27_transform_reduce",
    "C27_reduce",
    "C27_reduce_index_rejected",
    "C27_count_if",
    "C27_count_if_fails",
    "C27_count_if_lengths_differ"
   ],
   "note": ""
  },
  {
   "property": "C28",
   "status": "proved",
   "theorems": [
    "C28_all_of",
    "C28_any_of",
    "C28_none_of"
   ],
   "note": ""
  },
  {
   "property": "C29",
   "status": "proved",
   "theorems": [
    "C29_iota",
    "C29_iota_integers",
    "C29_iota_last_value_refuted",
    "C29_fill",
    "C29_generate",
    "C29_generate_throws"
   ],
   "note": "range_iota needs the value one past the last element to be representable in a signed type (as std::iota): C29_iota_last_value_refuted."
  },
  {
   "property": "C30",
   "status": "proved",
   "theorems": [
    "C30_shuffle_permutes",
    "C30_shuffle_unbiased",
    "C30_every_draw_sequence"
   ],
   "note": "Random sources are arbitrary state-passing functions respecting the requested bounds."
  },
  {
   "property": "C31",
   "status": "proved",
   "theorems": [
    "C31_apply_permutation",
    "C31_index_type_refuted"
   ],
   "note": "The condition that n is representable in the index type is necessary: C31_index_type_refuted shows 128 elements with int8_t indices being left alone."
  },
  {
   "property": "C32",
   "status": "proved",
   "theorems": [
    "C32_apply_reverse_permutation",
    "C32_reverse_undoes_apply",
    "C32_apply_undoes_reverse"
   ],
   "note": ""
  },
  {
   "property": "C33",
   "status": "proved",
   "theorems": [
    "C33_apply_detects",
    "C33_reverse_detects"
   ],
   "note": "The log of the model holds the elements after every single swap."
  },
  {
   "property": "C34",
   "status": "proved",
   "theorems": [
    "C34_template_for",
    "C34_template_for_count",
    "C34_rejected"
   ],
   "note": "template_for with an explicit size: C34_template_for_count; sizes smaller than the tuples are accepted, see C35_given_size_refuted."
  },
  {
   "property": "C35",
   "status": "partial",
   "theorems": [
    "C35_array_transform",
    "C35_tuple_transform",
    "C35_pure",
    "C35_sizes_differ",
    "C35_given_size_too_large",
    "C35_given_size_refuted"
   ],
   "note": "Proved for the overloads without a size argument; the order of the calls of tuple_transform is unspecified and arbitrary in the theorem. With an explicit size, sizes need not agree: refuted (C35_given_size_refuted), larger sizes are rejected. The element types of the resulting arrays are the subject of C83."
  },
  {
   "property": "C36",
   "status": "proved",
   "theorems": [
    "C36_transform_reduce",
    "C36_reduce",
    "C36_reduce_calls",
    "C36_all_of",
    "C36_any_of",
    "C36_none_of"
   ],
   "note": ""
  },
  {
   "property": "C37",
   "status": "proved",
   "theorems": [
    "C37_cat",
    "C37_fill",
    "C37_iota"
   ],
   "note": "Total sizes up to 2^64 - 1. array_iota needs the value past the last element to be representable."
  },
  {
   "property": "C38",
   "status": "partial",
   "theorems": [
    "C38_equal",
    "C38_less",
    "C38_less_order",
    "C38_others",
    "C38_not_equal_partial",
    "C38_not_equal_refuted",
    "C38_not_equal_empty_refuted"
   ],
   "note": "== , <, >, <=, >= proved for all sizes; the claim for != is refuted: it is true iff all elements differ (C38_not_equal_partial)."
  },
  {
   "property": "C39",
   "status": "proved",
   "theorems": [
    "C39_values_forms",
    "C39_name_description",
    "C39_name_only",
    "C39_values_aligned",
    "C39_names_belong_to_values",
    "C39_value_array",
    "C39_absent",
    "C39_empty_list_refuted"
   ],
   "note": "For all well-typed metadata trees: name and description are the first and second string; values, value names and value descriptions are columns of one list of records; absence gives nullopt. C39_empty_list_refuted records that an explicitly empty tuple among the entries hides a later list of values."
  },
  {
   "property": "C40",
   "status": "proved",
   "theorems": [
    "C40_value_index",
    "C40_by_name",
    "C40_value_index_by_name",
    "C40_member_index_by_name",
    "C40_member_by_name",
    "C40_exclusive_member_by_name",
    "C40_unavailable_rejected"
   ],
   "note": "Least index or -1 / termination for all lists; by-name variants for values and members; member lookup returns the member at that index."
  },
  {
   "property": "C41",
   "status": "proved",
   "theorems": [
    "C41_bases_forms",
    "C41_exclusive_forms",
    "C41_bases_in_order",
    "C41_members",
    "C41_available",
    "C41_exactly",
    "C41_exclusive",
    "C41_base_rejected"
   ],
   "note": "members() computes the recursive concatenation for hierarchies of any depth and width (with fewer than 2^64 members in total); it exists whenever all classes are reflected and inheritance is well-founded."
  },
  {
   "property": "C42",
   "status": "partial",
   "theorems": [
    "C42_member_descriptions_partial",
    "C42_exclusive_labels",
    "C42_member_names_partial",
    "C42_find_member_by_name_partial",
    "C42_deep_hierarchy_refuted",
    "C42_no_own_members_refuted"
   ],
   "note": "Proved for classes whose bases are roots, all of them having named member records. False for deeper hierarchies (C42_deep_hierarchy_refuted: names descend one level only) and for classes without members of their own (C42_no_own_members_refuted)."
  },
  {
   "property": "C43",
   "status": "proved",
   "theorems": [
    "C43_read",
    "C43_assign",
    "C43_by_name",
    "C43_copy_by_name"
   ],
   "note": "Reading, assigning (exactly the members, given distinct member pointers), selection by name, and copying by name between classes of different layout."
  },
  {
   "property": "C44",
   "status": "partial",
   "theorems": [
    "C44_make_tuple_constant",
    "C44_make_array_constant",
    "C44_make_array_constant_empty",
    "C44_get_rejected",
    "C44_value",
    "C44_nested_constvals",
    "C44_idempotent",
    "C44_type_sequence",
    "C44_tuple_of_type_sequences_rejected",
    "C44_tuple_of_type_sequences_refuted",
    "C44_representation",
    "C44_reference",
    "C44_get"
   ],
   "note": "Values nested to any depth; normalization is idempotent, gives the documented representation, get<I>() commutes with it. Constvals inside tuples stand for their values (C44_nested_constvals). Refuted for tuples that contain a type_sequence<>, which have no constval because type_sequence<> has no value_type (C44_tuple_of_type_sequences_refuted)."
  },
  {
   "property": "C45",
   "status": "partial",
   "theorems": [
    "C45_empty_tuple_rejected",
    "C45_empty_tuple_refuted",
    "C45_empty_tuple_partial",
    "C45_transform_constvals",
    "C45_transform_type_sequence",
    "C45_transform_values",
    "C45_extend_constvals",
    "C45_extend_values",
    "C45_extract",
    "C45_commutes",
    "C45_transform_functors_refuted",
    "C45_extract_derived_refuted"
   ],
   "note": "Proved for arguments that are constvals or not of empty class. Refuted for other functors of empty class, which constval_transform calls or passes on depending on the other arguments, for std::tuple<> and tuples of constvals that are empty classes, which constval_transform tries to call (C45_empty_tuple_refuted), and for constval_extract of classes derived from std::integral_constant<>, which are not recognised as constvals."
  },
  {
   "property": "C46",
   "status": "proved",
   "theorems": [
    "C46_too_large",
    "C46_sizes",
    "C46_constvals",
    "C46_type_sequence"
   ],
   "note": "For sizes representable in std::ptrdiff_t and the container's size type."
  },
  {
   "property": "C47",
   "status": "proved",
   "theorems": [
    "C47_index_range",
    "C47_index_range_num",
    "C47_interval",
    "C47_iterator_arithmetic",
    "C47_iterator_steps",
    "C47_iterator_order"
   ],
   "note": "index ranges and iterator laws hold wherever the results are representable in the index type"
  },
  {
   "property": "C48",
   "status": "partial",
   "theorems": [
    "C48_get_rejected",
    "C48_negative_extent",
    "C48_extent_too_large",
    "C48_range",
    "C48_range_extent",
    "C48_extent_mismatch",
    "C48_iterator_pair_extent_refuted",
    "C48_reversed_refuted"
   ],
   "note": "proved for first <= last and non-negative extents; refuted: an iterator pair with a static extent is not checked (C48_iterator_pair_extent_refuted), reversed pairs and negative extents are accepted and then defeat the bounds check (C48_reversed_refuted)"
  },
  {
   "property": "C49",
   "status": "proved",
   "theorems": [
    "C49_value_semantics",
    "C49_memory_safe",
    "C49_no_leak",
    "C49_all_freed",
    "C49_no_alias"
   ],
   "note": "Histories of any length over any number of buffers, with failing allocations and throwing element copies: results equal those of a machine without pointers, no invalid access or delete, blocks in use = live heap buffers. Reading elements never initialised (C51) ends the part of a history that is claimed about; copy assignment between classes that may use the heap is rejected at compile time."
  },
  {
   "property": "C50",
   "status": "proved",
   "theorems": [
    "C50_make_buffer",
    "C50_make_buffer_max",
    "C50_make_fixed_buffer",
    "C50_make_fixed_buffer_max",
    "C50_placement"
   ],
   "note": "Sizes that are not contract-conforming: negative ones are reported by the allocation (bad_alloc) rather than as contract violation, since the check comes after it."
  },
  {
   "property": "C51",
   "status": "partial",
   "theorems": [
    "C51_initial_elements_partial",
    "C51_small_buffer_refuted",
    "C51_copy_refuted"
   ],
   "note": "Proved in all cases except one, where the claim is refuted: elements of trivial type in the small buffer of a buffer<> of dynamic extent are left uninitialised (C51_small_buffer_refuted, C51_copy_refuted)."
  },
  {
   "property": "C52",
   "status": "partial",
   "theorems": [
    "C52_capacity_partial",
    "C52_size_ctor",
    "C52_array_ctor_overflows",
    "C52_array_ctor_refuted"
   ],
   "note": "Proved for sizes, static extents, assignment; refuted for the array constructor of fixed_buffer<> with dynamic extent, which writes out of bounds if the array is longer than the capacity (C52_array_ctor_refuted)."
  },
  {
   "property": "C53",
   "status": "proved",
   "theorems": [
    "C53_const_iterators",
    "C53_iterator_to_const",
    "C53_write_const_component",
    "C53_accept",
    "C53_components",
    "C53_read",
    "C53_write",
    "C53_write_component",
    "C53_iteration",
    "C53_collect",
    "C53_iterators",
    "C53_temporary_refuted",
    "C53_reassigned_refuted",
    "C53_const_refuted",
    "C53_const_objects_refuted"
   ],
   "note": "Any number of spans; writes for spans without common elements (frame conditions without that). Beyond the claim: references and iterators depend on the span object (C53_temporary_refuted, C53_reassigned_refuted), and references to const elements can be assigned to (C53_const_refuted, C53_const_objects_refuted)."
  },
  {
   "property": "C54",
   "status": "partial",
   "theorems": [
    "C54_empty_inverted",
    "C54_front_back_inverted",
    "C54_size_partial",
    "C54_empty_refuted",
    "C54_front_back_refuted"
   ],
   "note": "Refuted: empty() is inverted for every span, so front() and back() fail exactly on non-empty spans. Only size() is right."
  },
  {
   "property": "C55",
   "status": "partial",
   "theorems": [
    "C55_subspan",
    "C55_compose",
    "C55_first_last",
    "C55_first_marker_accepted",
    "C55_first_marker_refuted"
   ],
   "note": "Proved for all offsets and counts, except that first(std::size_t(-1)) is accepted for every span (C55_first_marker_refuted)."
  },
  {
   "property": "C56",
   "status": "proved",
   "theorems": [
    "C56_swap_const",
    "C56_swap",
    "C56_swap_rows",
    "C56_swaps_permute",
    "C56_assign",
    "C56_assign_rows"
   ],
   "note": "For spans without common elements; also for references of different span objects."
  },
  {
   "property": "C57",
   "status": "partial",
   "theorems": [
    "C57_ambiguous_rejected",
    "C57_with_index_partial",
    "C57_homogeneous_partial",
    "C57_selection",
    "C57_rvalues",
    "C57_lvalues_rejected",
    "C57_types_refuted",
    "C57_ambiguous_refuted",
    "C57_lvalues_refuted"
   ],
   "note": "Refuted: every call for an existing element is ambiguous by the language rules (C57_ambiguous_refuted); for compilers that rank the overloads, the other elements are converted to the type of the replaced one (C57_types_refuted), so that it is right only if they have that type (C57_homogeneous_partial)."
  },
  {
   "property": "C58",
   "status": "partial",
   "theorems": [
    "C58_single_rejected",
    "C58_single_or_default_default",
    "C58_partial",
    "C58_rvalues",
    "C58_lvalues_rejected",
    "C58_single_refuted",
    "C58_single_or_default_refuted",
    "C58_lvalues_refuted"
   ],
   "note": "Refuted: the predicate is never applied, so that single() is always ill-formed and single_or_default() always returns the default."
  },
  {
   "property": "C59",
   "status": "partial",
   "theorems": [
    "C59_variant_cat_partial",
    "C59_variant_cat_refuted",
    "C59_none"
   ],
   "note": "Proved for one or two variants; refuted for three: the third and further variants are dropped."
  },
  {
   "property": "C60",
   "status": "proved",
   "theorems": [
    "C60_variant_cast_rejected",
    "C60_optional_to_variant_rejected",
    "C60_optional_round_trip",
    "C60_variant_round_trip",
    "C60_well_formed",
    "C60_monostate_lists",
    "C60_variant_cast"
   ],
   "note": "For all alternative lists for which the functions are well-formed (C60_well_formed)."
  },
  {
   "property": "C61",
   "status": "proved",
   "theorems": [
    "C61_construct",
    "C61_from_int",
    "C61_compare_type",
    "C61_compare_enums",
    "C61_switch",
    "C61_values",
    "C61_type_compare",
    "C61_repeated",
    "C61_long",
    "C61_empty"
   ],
   "note": "For lists without repetition of fewer than 24 types; a type that is listed twice cannot be used (C61_repeated), longer lists are rejected (C61_long)."
  },
  {
   "property": "C62",
   "status": "partial",
   "theorems": [
    "C62_any_no_all",
    "C62_single_flag_partial",
    "C62_sign_bit_rejected",
    "C62_sign_bit_refuted",
    "C62_has_flag_partial",
    "C62_not_a_flag"
   ],
   "note": "Bit queries proved for all types; refuted: the sign bit of a signed underlying type is not accepted as a single flag (C62_sign_bit_refuted)."
  },
  {
   "property": "C63",
   "status": "proved",
   "theorems": [
    "C63_recursion",
    "C63_no_other_outcome",
    "C63_deterministic",
    "C63_const",
    "C63_function",
    "C63_objects"
   ],
   "note": "For functors with any state, any number of recursive calls, exceptions thrown and caught; the callable is assumed to be called only by the functor's body."
  },
  {
   "property": "C64",
   "status": "proved",
   "theorems": [
    "C64_decomposition",
    "C64_defined_below_size",
    "C64_rejected_beyond",
    "C64_hit_exactly_once",
    "C64_size",
    "C64_in_order"
   ],
   "note": ""
  },
  {
   "property": "C65",
   "status": "proved",
   "theorems": [
    "C65_flags_sequences_read_back",
    "C65_blank_separator_refuted"
   ],
   "note": "For reserved characters as separators (followed by any whitespace). Whitespace alone does not separate flags (C65_blank_separator_refuted)."
  },
  {
   "property": "C66",
   "status": "partial",
   "theorems": [
    "C66_arguments_forwarded_partial",
    "C66_direction",
    "C66_temporary_partial",
    "C66_only_lvalues_change_partial",
    "C66_destroyed_partial",
    "C66_as_enum_undefined",
    "C66_as_enum_refuted",
    "C66_as_enum_argument"
   ],
   "note": "Proved for manipulators that exist while they are used; refuted for as_enum() and as_flags(), whose results refer to a manipulator that was destroyed when they returned (C66_as_enum_refuted): formally undefined, without visible effect in practice since the functors capture nothing."
  },
  {
   "property": "C67",
   "status": "proved",
   "theorems": [
    "C67_transform",
    "C67_predicates",
    "C67_reduce",
    "C67_by_value",
    "C67_cat"
   ],
   "note": "For std::tuple<>, std::pair<> and std::array<>; rvalue value_tuple<>s are treated like lvalues (C87). For tuples of references, see C91."
  },
  {
   "property": "C68",
   "status": "proved",
   "theorems": [
    "C68_apply",
    "C68_apply_function"
   ],
   "note": ""
  },
  {
   "property": "C69",
   "status": "partial",
   "theorems": [
    "C69_make_range_pair_partial",
    "C69_make_range_pair_rejected",
    "C69_make_range_extent_rejected",
    "C69_make_range_pair_refuted",
    "C69_make_range_extent_refuted"
   ],
   "note": "True for iterators without constexpr default constructor (std::list<> before C++20 and the like); refuted for pointers and other iterators, for which the call is ambiguous (C69_make_range_pair_refuted), and for extents, for which there is no viable overload (C69_make_range_extent_refuted): one enable_if condition is inverted."
  },
  {
   "property": "C70",
   "status": "partial",
   "theorems": [
    "C70_is_bitmask_partial",
    "C70_bitmask_partial",
    "C70_bitmask_refuted",
    "C70_tuple_like_never_partial",
    "C70_is_tuple_like_partial",
    "C70_constval_concept_partial",
    "C70_constval_never_partial",
    "C70_is_constval_partial",
    "C70_tuple_like_refuted",
    "C70_constval_refuted",
    "C70_is_constval_of_partial",
    "C70_is_constval_const_partial",
    "C70_is_constval_const_refuted",
    "C70_constval_of_partial",
    "C70_distinct_from"
   ],
   "note": "The traits is_bitmask, is_tuple_like, is_constval and is_constval_of are as specified, and is_bitmask agrees with the concept for all types whose operators do not tell const operands from others. Refuted: otherwise the two differ; the concept tuple_like holds for no type at all, and constval only for classes whose value_type is an lvalue reference, as they compare the type of an lvalue expression with an object type (C70_tuple_like_never_partial, C70_constval_concept_partial); a const-qualified std::integral_constant<> is not taken for a constval (C70_is_constval_const_refuted)."
  },
  {
   "property": "C71",
   "status": "proved",
   "theorems": [
    "C71_rvalue_ref_fn",
    "C71_lvalue_ref_fn",
    "C71_lvalue_const_ref_fn"
   ],
   "note": ""
  },
  {
   "property": "C72",
   "status": "partial",
   "theorems": [
    "C72_forward_to_partial",
    "C72_fallback_partial",
    "C72_forwarder_rejected",
    "C72_forwarder_refuted"
   ],
   "note": "True for functors without parameters. Refuted for functors that expect the forwarding function: the class initialises a base class that it does not have (C72_forwarder_refuted)."
  },
  {
   "property": "C73",
   "status": "partial",
   "theorems": [
    "C73_visit_partial",
    "C73_visit_as_partial",
    "C73_visit_rejected_partial",
    "C73_transform_type_partial",
    "C73_variant_transform_partial",
    "C73_frame_partial",
    "C73_valueless_partial",
    "C73_many_partial",
    "C73_many_rejected",
    "C73_const_rvalue_rejected",
    "C73_const_rvalue_refuted",
    "C73_many_mutable_refuted"
   ],
   "note": "Proved for visit(), visit<R>() and variant_transform(), except for const rvalue variants, which variant_transform() and variant_transform_many() reject (C73_const_rvalue_refuted). variant_transform_many() calls a const copy of the functor: right for functors that can be called as const with the same types, ill-formed for mutable ones (C73_many_mutable_refuted)."
  },
  {
   "property": "C74",
   "status": "partial",
   "theorems": [
    "C74_transform_reduce",
    "C74_count_if",
    "C74_predicates",
    "C74_iterators_partial",
    "C74_moved",
    "C74_elements_exist",
    "C74_algorithms",
    "C74_algorithms_rvalues",
    "C74_zip_partial",
    "C74_borrows_partial",
    "C74_owns",
    "C74_rvalue_rejected",
    "C74_rvalue_refuted",
    "C74_assigns_through",
    "C74_assign_const",
    "C74_assign_rejected",
    "C74_assign_refuted",
    "C74_unusable_rejected",
    "C74_array_rejected",
    "C74_array_refuted"
   ],
   "note": "Proved for algorithms with arguments of all value categories and for range_zip() of lvalues and const rvalues. Refuted: begin(), end() and operator [] do not compile if an argument was a non-const rvalue, as in the documented example (C74_rvalue_refuted); assigning zipped ranges assigns to the arguments (C74_assign_refuted); built-in arrays are rejected (C74_array_refuted)."
  },
  {
   "property": "C75",
   "status": "partial",
   "theorems": [
    "C75_apply_no_loss",
    "C75_reverse_no_loss",
    "C75_damaged",
    "C75_reverse_resumes",
    "C75_apply_resumes_partial",
    "C75_apply_resumes_refuted",
    "C75_shuffle",
    "C75_shuffle_damaged"
   ],
   "note": "No loss is proved for all three algorithms and any index array; resuming is proved for apply_reverse_permutation(). Refuted for apply_permutation() (C75_apply_resumes_refuted): interrupted in the middle of a cycle, the next call reports a contract violation. Proved for it: if a later call returns normally, the rearrangement is complete."
  },
  {
   "property": "C76",
   "status": "proved",
   "theorems": [
    "C76_apply",
    "C76_reverse",
    "C76_shuffle",
    "C76_soa_apply",
    "C76_soa_reverse",
    "C76_soa_detects",
    "C76_soa_shuffle",
    "C76_soa_shuffle_unbiased",
    "C76_soa_const_rejected"
   ],
   "note": ""
  },
  {
   "property": "C77",
   "status": "partial",
   "theorems": [
    "C77_enum_any_buffer_partial",
    "C77_flags_any_buffer_partial",
    "C77_fuel",
    "C77_enum_exact",
    "C77_flags_exact",
    "C77_old_ws",
    "C77_not_good",
    "C77_agrees",
    "C77_partial_token_refuted",
    "C77_eof_mask",
    "C77_eof_mask_refuted"
   ],
   "note": "Proved: state bits, exceptions, agreement with streams without exceptions, and exact results for buffers that deliver their characters. Refuted: if the buffer throws in the middle of a token, the characters read so far are taken for the token and the exception is swallowed (C77_partial_token_refuted); with eofbit in the exception mask, a token at the end of the input is consumed but not stored (C77_eof_mask_refuted)."
  },
  {
   "property": "C78",
   "status": "proved",
   "theorems": [
    "C78_enum_padded",
    "C78_flags_padded",
    "C78_enum_columns_read_back",
    "C78_flags_columns_read_back"
   ],
   "note": ""
  },
  {
   "property": "C79",
   "status": "partial",
   "theorems": [
    "C79_best",
    "C79_only_callable",
    "C79_order",
    "C79_nested",
    "C79_state",
    "C79_exact_partial",
    "C79_fallback_partial",
    "C79_const_rejected",
    "C79_ambiguous_rejected",
    "C79_functors_rejected",
    "C79_shared_rejected",
    "C79_mutable_generic_refuted"
   ],
   "note": "Selection, order, nesting, state and rejections are proved without restriction. That an exact match is preferred to a generic functor is proved if all operators are const; refuted for a mutable generic functor called on a non-const object (C79_mutable_generic_refuted)."
  },
  {
   "property": "C80",
   "status": "partial",
   "theorems": [
    "C80_never_wrong",
    "C80_listed_partial",
    "C80_unlisted_partial",
    "C80_booleans",
    "C80_transform_partial",
    "C80_transform_unlisted_partial",
    "C80_listed_refuted"
   ],
   "note": "That f is never called with other constants is proved for all lists of constants of the type of the runtime value; booleans are dispatched without failure. Exactness is proved for lists for which expand() is exact (C13); refuted for a list of 32-bit constants that wraps around (C80_listed_refuted)."
  },
  {
   "property": "C81",
   "status": "proved",
   "theorems": [
    "C81_rejected",
    "C81_range_for",
    "C81_transform_reduce",
    "C81_count_if",
    "C81_all_of",
    "C81_any_of",
    "C81_none_of",
    "C81_zip_sentinel_for",
    "C81_zip_for",
    "C81_failures",
    "C81_consumed",
    "C81_bounded",
    "C81_results",
    "C81_iota_generate_fill",
    "C81_reduce",
    "C81_sequences"
   ],
   "note": "For every environment (answers of all operations as a function of the history) and every evaluation order. Termination is not claimed, since ranges may be infinite: the loops carry fuel, and the statements hold for every amount, including the runs cut off by it. C81_bounded assumes that size() is not negative."
  },
  {
   "property": "C82",
   "status": "proved",
   "theorems": [
    "C82_safe",
    "C82_balanced",
    "C82_all_destroyed",
    "C82_failed",
    "C82_destroy",
    "C82_created",
    "C82_succeeds",
    "C82_accessible",
    "C82_assigned",
    "C82_too_long"
   ],
   "note": "Every operation of the element type except its destructor, and every allocation, may throw, as an oracle decides; contract violations throw. C82_too_long shows that the precondition on array constructors is needed."
  },
  {
   "property": "C83",
   "status": "partial",
   "theorems": [
    "C83_explicit",
    "C83_accepted_or_rejected",
    "C83_no_loss",
    "C83_narrowing_rejected",
    "C83_deduced_tuples",
    "C83_deduced_arrays",
    "C83_sizes_irrelevant",
    "C83_empty",
    "C83_row_major",
    "C83_cat",
    "C83_fill",
    "C83_reference_results_refuted",
    "C83_const_results_refuted",
    "C83_range_index_refuted",
    "C83_rvalue_functor_refuted",
    "C83_braces_refuted",
    "C83_single_array_refuted"
   ],
   "note": "Proved for functors that are not ref-qualified and for element types that are no arrays (and for arrays of arrays with scalar results). Refuted: functors that return references are accepted for arrays but not for tuples; the element type can be const; with range_index or an rvalue functor the element type can be another than the type the calls return; results that cannot be converted can be accepted by leaving out braces, or if a single one is an array."
  },
  {
   "property": "C84",
   "status": "partial",
   "theorems": [
    "C84_extract",
    "C84_extract_as",
    "C84_extract_as_absent",
    "C84_literal_rejected",
    "C84_literal_refuted",
    "C84_view_refuted",
    "C84_for_values",
    "C84_values_aligned",
    "C84_value_first",
    "C84_value_first_refuted",
    "C84_for_exclusive_members",
    "C84_for_members",
    "C84_for_members_refuted",
    "C84_name",
    "C84_descriptions",
    "C84_member_descriptions",
    "C84_names",
    "C84_const_irrelevant",
    "C84_const_refuted"
   ],
   "note": "Proved for non-const types, V other than char const*, and predicates that the type itself or member pointers do not satisfy. Refuted: string literals cannot be extracted as such, nor as std::string_view by type; values (or members) that satisfy the predicate themselves are returned instead of metadata about them; indirect bases are left out; names, bases and descriptions are lost if the type is const-qualified (values, members and their names are not)."
  },
  {
   "property": "C85",
   "status": "partial",
   "theorems": [
    "C85_matching",
    "C85_ordering",
    "C85_selection",
    "C85_interface",
    "C85_interface_rejected",
    "C85_size_and_subscript",
    "C85_static_tuple",
    "C85_get",
    "C85_get_dynamic_rejected",
    "C85_bindings_partial",
    "C85_bindings_by_value_rejected",
    "C85_bindings_by_value_refuted",
    "C85_bindings_const_refuted",
    "C85_get_const_refuted",
    "C85_dynamic_partial",
    "C85_dynamic_rejected",
    "C85_dynamic_refuted",
    "C85_library_iterators_refuted"
   ],
   "note": "The rules for choosing a partial specialisation are modelled and proved correct for arbitrary patterns; the interface, tuple_size<>, get<I>() and their rejections are proved for all types and extents. Refuted: for a range of dynamic extent with equal iterator types, std::tuple_size<> is ambiguous; elements cannot be bound by value, nor const elements by auto&; get<I>() of a const range is rejected if the iterators return temporary objects; ranges of the library's own random-access iterators have no size() and no []."
  },
  {
   "property": "C86",
   "status": "partial",
   "theorems": [
    "C86_result",
    "C86_elements",
    "C86_rejected",
    "C86_run_time_refuted"
   ],
   "note": "The result is characterised for arbitrary ranges, also those that say a wrong size or differ between compile time and run time. Exactness is proved if the functor returns the same range at compile time and at run time; refuted for a functor whose range is longer at run time, which is written beyond the end of the array (C86_run_time_refuted)."
  },
  {
   "property": "C87",
   "status": "partial",
   "theorems": [
    "C87_construction_partial",
    "C87_rejected",
    "C87_move_only_refuted",
    "C87_use_after_move",
    "C87_get",
    "C87_element",
    "C87_bindings_partial",
    "C87_bindings_by_value_refuted",
    "C87_references_refuted",
    "C87_cat",
    "C87_moved_refuted"
   ],
   "note": "Proved for classes that can be copied and arguments not used after being moved from; acceptance is characterised exactly. Refuted: move-only classes are rejected; elements that are not const cannot be bound by value; references to non-const objects become const through a const tuple; elements of rvalue tuples are copied by the tuple algorithms, not moved."
  },
  {
   "property": "C88",
   "status": "partial",
   "theorems": [
    "C88_true",
    "C88_false",
    "C88_rejected",
    "C88_depth",
    "C88_class_template_partial",
    "C88_member",
    "C88_alias",
    "C88_answers_partial",
    "C88_hard_error_refuted",
    "C88_class_template_refuted"
   ],
   "note": "The answer is characterised for all programs: true iff a type is named, false iff the first error is in the immediate context, ill-formed iff it is in a class that has to be instantiated. Refuted: errors in such classes are errors (C88_hard_error_refuted); a specialisation of a class template is never instantiated, so that the answer can be true though it cannot be used (C88_class_template_refuted)."
  },
  {
   "property": "C89",
   "status": "proved",
   "theorems": [
    "C89_class_template",
    "C89_unique",
    "C89_qualified",
    "C89_alias",
    "C89_concept",
    "C89_alias_not_detected"
   ],
   "note": "Types of the program are assumed to have specialisations with fitting numbers of arguments only. Whether an alias template that only renames a class template is taken for it is left to the implementation (a parameter)."
  },
  {
   "property": "C90",
   "status": "partial",
   "theorems": [
    "C90_resolution",
    "C90_tuples_partial",
    "C90_array_transform_partial",
    "C90_ranges_partial",
    "C90_range_predicates_partial",
    "C90_range_reductions_partial",
    "C90_range_reduce_partial",
    "C90_generate_partial",
    "C90_predicates_partial",
    "C90_reductions_partial",
    "C90_reduce_partial",
    "C90_held_predicates_partial",
    "C90_held_reduce_partial",
    "C90_held_reductions_partial",
    "C90_rejected",
    "C90_ranges_rejected",
    "C90_predicates_rejected",
    "C90_mutable_rvalue_refuted",
    "C90_const_overload_refuted",
    "C90_not_movable_refuted",
    "C90_generate_refuted",
    "C90_array_transform_refuted"
   ],
   "note": "Proved for template_for(), tuple_transform(), array_transform<T>(), all range algorithms except range_generate(), and for predicates and reducers over tuples passed as lvalues, with the exact operator that is called, the final states and the frame. Refuted for rvalues passed to template_reduce(), template_transform_reduce(), template_all_of(), template_any_of() and template_none_of(), which are moved and called as const (C90_held_..._partial describe this exactly; C90_mutable_rvalue_refuted, C90_const_overload_refuted, C90_not_movable_refuted), for range_generate(), which takes the functor by const reference (C90_generate_refuted), and for array_transform() with deduced element type (C90_array_transform_refuted)."
  },
  {
   "property": "C91",
   "status": "proved",
   "theorems": [
    "C91_element_expressions",
    "C91_tuple_cat",
    "C91_references_only"
   ],
   "note": "The tuples are std::tuple<>s. If the same object is passed twice as an rvalue, the result depends on the order of initialization (C91_moved_twice_example)."
  },
  {
   "property": "C92",
   "status": "partial",
   "theorems": [
    "C92_accepted",
    "C92_template_for",
    "C92_template_for_partial",
    "C92_copies_refuted",
    "C92_moved_from_refuted",
    "C92_not_copyable_refuted"
   ],
   "note": "What happens is characterised for all functors (C92_template_for, C92_accepted). The claim is proved for functors that return nothing or values; for lvalue references, the effects on the objects are as claimed but a copy is made. Refuted: results returned by reference are copied (C92_copies_refuted), objects returned by rvalue reference are moved from (C92_moved_from_refuted), and functors that return references to objects that cannot be copied are rejected (C92_not_copyable_refuted)."
  },
  {
   "property": "C93",
   "status": "proved",
   "theorems": [
    "C93_tuple_transform",
    "C93_failure",
    "C93_rejected"
   ],
   "note": "For std::tuple<> as the tuple template."
  },
  {
   "property": "C94",
   "status": "partial",
   "theorems": [
    "C94_template_transform_reduce",
    "C94_failure",
    "C94_rejected",
    "C94_elements_copied_rejected",
    "C94_stream_refuted",
    "C94_copies_refuted"
   ],
   "note": "The calls, the accumulators, the copies and the cases that are rejected are characterised exactly. Refuted: elements of lvalue tuples are copied before they are passed to the reducer (C94_copies_refuted) and have to be copyable (C94_elements_copied_rejected), and accumulators passed along by reference have to be copyable (C94_stream_refuted)."
  },
  {
   "property": "C95",
   "status": "partial",
   "theorems": [
    "C95_template_for",
    "C95_array_transform",
    "C95_tuple_transform",
    "C95_template_transform_reduce",
    "C95_template_all_of",
    "C95_calls_described",
    "C95_only_from_functions",
    "C95_get_propagates_refuted",
    "C95_apply",
    "C95_concatenation",
    "C95_range",
    "C95_static_range",
    "C95_range_terminates",
    "C95_range_propagates_refuted"
   ],
   "note": "What happens is characterised for all programs: which elements are read, in any order of evaluation, and where it ends. Exceptions of functions, and those of get<I>() in apply(), tuple_cat() and array_cat(), reach the caller. Refuted: get<I>() in the other algorithms (C95_get_propagates_refuted) and the iterators of range<> (C95_range_propagates_refuted) are called in functions declared noexcept, so an exception terminates the program. template_any_of() and template_none_of() are not repeated here."
  },
  {
   "property": "C96",
   "status": "partial",
   "theorems": [
    "C96_in_step",
    "C96_items",
    "C96_items_at",
    "C96_copies",
    "C96_comparisons",
    "C96_exception",
    "C96_single_iterator",
    "C96_usable_after_exception_refuted"
   ],
   "note": "Positions are unbounded integers. The claim is proved without exceptions; with exceptions, the state of the iterator is characterised exactly, and unchanged if there is one underlying iterator which gives the strong guarantee. Refuted with two (C96_usable_after_exception_refuted)."
  },
  {
   "property": "C97",
   "status": "partial",
   "theorems": [
    "C97_ranges",
    "C97_uncallable",
    "C97_all_of",
    "C97_any_none_of",
    "C97_ordinary_partial",
    "C97_explicit_refuted",
    "C97_negation_refuted",
    "C97_reference_refuted"
   ],
   "note": "Characterised exactly for all return types, on tuples and ranges; for types with an implicit conversion, copies and no contradicting operator ! the claim holds (C97_ordinary_partial). Refuted: template_any_of() and template_none_of() reject results that convert explicitly only (C97_explicit_refuted), tuples algorithms copy results returned by reference (C97_reference_refuted), and all_of() uses operator ! rather than the conversion (C97_negation_refuted)."
  },
  {
   "property": "C98",
   "status": "partial",
   "theorems": [
    "C98_range_reduce",
    "C98_range_transform_reduce",
    "C98_template_reduce",
    "C98_agree_partial",
    "C98_conversion_refuted",
    "C98_self_move_refuted",
    "C98_assignable_refuted"
   ],
   "note": "Characterised exactly for all reducers and types; they agree if the reducer returns the type of the initial value and assignments preserve values (C98_agree_partial). Refuted: over ranges partial results are converted to the type of the initial value (C98_conversion_refuted), reducers that return the accumulator by rvalue reference cause a self-move (C98_self_move_refuted), and the initial value has to be assignable (C98_assignable_refuted). Typed template_transform_reduce() is the subject of C94."
  },
  {
   "property": "C99",
   "status": "partial",
   "theorems": [
    "C99_callable",
    "C99_single",
    "C99_exact",
    "C99_const_ref_partial",
    "C99_const_ref_refuted",
    "C99_refines",
    "C99_generic",
    "C99_generic_value_rejected",
    "C99_ambiguous_rejected"
   ],
   "note": "For handlers with one call operator each, arguments that are passed without conversions (for conversions, see C79), and all kinds of reference parameters. Refuted: a generic handler that takes auto&& or auto& is preferred to a handler for T const& if the argument is not const (C99_const_ref_refuted); with generic handlers that take values or references to const, it is not (C99_const_ref_partial)."
  },
  {
   "property": "C100",
   "status": "proved",
   "theorems": [
    "C100_race_free",
    "C100_result",
    "C100_rest",
    "C100_ends",
    "C100_assignment_races"
   ],
   "note": "Every access to an element, to an index and to the data member of a span object is a step of its own, and the steps of the threads are interleaved in any order; by the memory model of C++, programs without data races behave like this. Copying elements does not throw; generators are not shared."
  },
  {
   "property": "C101",
   "status": "proved",
   "theorems": [
    "C101_apply_fewest",
    "C101_apply_bound",
    "C101_reverse_fewest",
    "C101_shuffle"
   ],
   "note": "The calls of swap() are recorded by a swap that otherwise does the same; the theorems also state that recording changes nothing."
  },
  {
   "property": "C102",
   "status": "partial",
   "theorems": [
    "C102_justified",
    "C102_linear",
    "C102_binary",
    "C102_binary_exact",
    "C102_acceptance",
    "C102_pure",
    "C102_unequal_refuted",
    "C102_listed_refuted",
    "C102_types_refuted"
   ],
   "note": "What is claimed about calls and answers is proved in full. Three claims one would expect are refuted: with a binary search, a constant can be chosen without asking ==, a listed constant can be missed if == distinguishes more than <, and a sorted list is rejected where an unsorted one is accepted."
  },
  {
   "property": "C103",
   "status": "partial",
   "theorems": [
    "C103_value",
    "C103_same_type_partial",
    "C103_constant_partial",
    "C103_form_partial",
    "C103_same_type_refuted",
    "C103_alternatives",
    "C103_repeated_rejected",
    "C103_otherwise_expanded",
    "C103_found_or_reported",
    "C103_expand_refuted"
   ],
   "note": "Exact for all values: types coincide iff the values are equal and structural, or the origin is the same. The unconditional claims (equal constants have the same type; every non-empty array can be expanded) are refuted. Constvals inside of values are not modelled here (see C44)."
  },
  {
   "property": "C104",
   "status": "partial",
   "theorems": [
    "C104_make_array_constant",
    "C104_make_array_constant_accepts",
    "C104_deduce_integral_partial",
    "C104_deduce_other_partial",
    "C104_deduce_made_partial",
    "C104_deduce_single_partial",
    "C104_deduce_tuple_partial",
    "C104_deduce_refuted"
   ],
   "note": "make_array_constant() exactly; deduction agrees with it exactly if the arguments are structural and normalised, or integral constants; refuted for floating-point constants and for single array or tuple constants."
  },
  {
   "property": "C105",
   "status": "partial",
   "theorems": [
    "C105_expression",
    "C105_overloads",
    "C105_same",
    "C105_to_stream_partial",
    "C105_to_stream_direct_partial",
    "C105_to_stream_refuted",
    "C105_from_stream_partial",
    "C105_from_stream_direct_partial",
    "C105_from_stream_refuted",
    "C105_constraint",
    "C105_constraint_refuted",
    "C105_to_stream_fixed",
    "C105_from_stream_fixed",
    "C105_fixed_forms",
    "C105_stream"
   ],
   "note": "Exact for all overload sets of non-template operators: to_stream<> is the expression for the base stream and a const lvalue. Equal to the expression for operators that take std::ostream& and the argument by value or const reference; refuted otherwise. from_stream<> is exact for lvalues; refuted for rvalues."
  },
  {
   "property": "C106",
   "status": "partial",
   "theorems": [
    "C106_best",
    "C106_better",
    "C106_standard",
    "C106_fallback_partial",
    "C106_ambiguous",
    "C106_fallback_refuted",
    "C106_template_refuted",
    "C106_source_partial",
    "C106_source_refuted"
   ],
   "note": "Exact for overloads of one argument; refuted for overloads that need user-defined conversions. any_source is exact for unevaluated operands; refuted otherwise."
  },
  {
   "property": "C107",
   "status": "proved",
   "theorems": [
    "C107_input",
    "C107_output",
    "C107_common",
    "C107_rejected",
    "C107_proper",
    "C107_nested",
    "C107_accepted_refuted"
   ],
   "note": "Extends C26 from the standard tags to all tag classes. Virtual base classes are not modelled."
  },
  {
   "property": "C108",
   "status": "partial",
   "theorems": [
    "C108_algorithms_partial",
    "C108_range_for_partial",
    "C108_unsized_rejected",
    "C108_algorithms_refuted",
    "C108_expand_rejected",
    "C108_expand_refuted",
    "C108_apply_17",
    "C108_reverse_17",
    "C108_apply_20",
    "C108_reverse_20",
    "C108_permutation_refuted",
    "C108_shuffle_17",
    "C108_shuffle_20",
    "C108_parse_enum",
    "C108_parse_flags_20",
    "C108_parse_flags_17_rejected",
    "C108_to_string_rejected",
    "C108_strings_refuted"
   ],
   "note": "Exact for every function named: range algorithms with and without known sizes, permutations and shuffle() in C++17 and C++20, parse_enum(), parse_flags(), and the functions that are always rejected. The claim itself is refuted for ranges without sizes, expand(), and C++17."
  },
  {
   "property": "C109",
   "status": "partial",
   "theorems": [
    "C109_assign",
    "C109_assign_tuple",
    "C109_swap",
    "C109_to_tuple",
    "C109_never_throws",
    "C109_cases",
    "C109_std_swap",
    "C109_exceptions_refuted"
   ],
   "note": "Which operations are performed, and in which order, is proved for element types of any behaviour, with and without exceptions. That exceptions reach the caller is refuted: all four functions are declared noexcept unconditionally, and no exception ever leaves them. Destruction of temporaries is not modelled."
  },
  {
   "property": "C110",
   "status": "partial",
   "theorems": [
    "C110_bindings_partial",
    "C110_names_unique",
    "C110_rejected",
    "C110_dynamic",
    "C110_tuple_elements",
    "C110_get",
    "C110_get_rejected",
    "C110_bindings_by_value_refuted"
   ],
   "note": "Proved for all types and forms except buffers of non-const objects declared by value or bound to an rvalue, which is refuted (does not compile). range<> and value_tuple<> are treated elsewhere."
  },
  {
   "property": "C111",
   "status": "partial",
   "theorems": [
    "C111_type",
    "C111_copy",
    "C111_overload_partial",
    "C111_overload_only",
    "C111_overload_parentheses_refuted",
    "C111_y_combinator",
    "C111_accepted",
    "C111_composition_refuted",
    "C111_pointers",
    "C111_make_partial",
    "C111_make_refuted",
    "C111_make_nested",
    "C111_passed_partial",
    "C111_passed_refuted"
   ],
   "note": "Deduced types, acceptance and number of copies are proved for all arguments; refuted are parentheses with overload in C++17 (as the documentation shows it), composition with arguments, rvalues in value_tuple, and equality of y_combinator(y) and make_y_combinator(y)."
  },
  {
   "property": "C112",
   "status": "partial",
   "theorems": [
    "C112_transform_std",
    "C112_transform_value_partial",
    "C112_copies",
    "C112_move_only_refuted",
    "C112_tie",
    "C112_cat_partial",
    "C112_cat_value_only",
    "C112_references_rejected",
    "C112_cat_copies",
    "C112_cat_std",
    "C112_cat_refuted"
   ],
   "note": "Which arguments are accepted, the element types and the copies made are proved for both templates; tie_members() is as claimed. That value_tuple accepts what std::tuple accepts is refuted for tuple_transform() and tuple_cat(). References to const as elements are left out."
  }
 ]
}
