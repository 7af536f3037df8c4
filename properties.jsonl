{"id": "C01", "title": "Enum names round-trip through strings", "statement": "For every enumeration whose listed names are accepted by the library and pairwise distinct, parse_enum(enum_to_string(v)) == v for every listed value v, also when the text is surrounded by any amount of blanks, tabs or newlines.", "quantifier": "all value/name lists of any length, all listed values, all surrounding whitespace", "why_tests_cant": "There are unboundedly many enumerations, name strings and paddings; a test fixes one enumeration.", "anchors": ["include/makeshift/string.hpp: enum_to_string, parse_enum", "include/makeshift/detail/serialize.hpp: enum_to_string, enum_from_string, trim, make_enum_metadata"]}
{"id": "C02", "title": "parse_enum accepts exactly the listed names", "statement": "parse_enum(s) returns a value iff s with leading/trailing whitespace removed equals a listed name, and then it returns the value listed first under that name; otherwise it throws std::runtime_error whose message quotes s unmodified and lists every supported name in declaration order.", "quantifier": "all input strings, all enumerations", "why_tests_cant": "The rejected inputs form an infinite set; tests sample a handful of bogus strings.", "anchors": ["include/makeshift/string.hpp: parse_enum", "include/makeshift/detail/serialize.hpp: try_enum_from_string, enum_from_string, enum_from_string_error"]}
{"id": "C03", "title": "enum_to_string is total exactly on listed values", "statement": "enum_to_string(v) yields the name of the first listed entry equal to v, and terminates with a contract violation iff v is not listed.", "quantifier": "all values of the enumeration's underlying type, all lists", "why_tests_cant": "Every bit pattern of the underlying type is a possible argument.", "anchors": ["include/makeshift/string.hpp: enum_to_string", "include/makeshift/detail/serialize.hpp: enum_to_string"]}
{"id": "C04", "title": "Reserved characters are recognised byte-exactly", "statement": "The set of characters that ends an enum/flags token while reading from a stream is exactly the documented reserved set: for every set of characters and every char (including those with negative char value) membership is decided correctly, and metadata is accepted iff every name is non-empty and free of reserved characters.", "quantifier": "all character sets, all 256 chars, all name lists", "why_tests_cant": "A word/bit indexing slip would only show up for particular bytes and sets.", "anchors": ["include/makeshift/detail/serialize.hpp: char_bitset, enum_forbidden_chars, flags_forbidden_chars, make_enum_metadata, make_flags_metadata"]}
{"id": "C05", "title": "Flags round-trip through strings", "statement": "For every flags enumeration with names accepted by the library and pairwise distinct, parse_flags(flags_to_string(f)) == f for every combination f of defined flags.", "quantifier": "all flag lists of any length, all names, all combinations of flags", "why_tests_cant": "The number of combinations is exponential and the names are arbitrary.", "anchors": ["include/makeshift/string.hpp: flags_to_string, parse_flags", "include/makeshift/detail/serialize.hpp: flags_to_string, flags_from_string, make_flags_metadata"]}
{"id": "C06", "title": "flags_to_string is canonical and exact", "statement": "flags_to_string(f) fails (contract violation) iff f has a bit not covered by any listed flag; otherwise it is the '+'-joined list of names of single-bit flags contained in f, in declaration order, each bit once, and the bits named are exactly the bits of f; for f == 0 it is the first name listed for zero, or the empty string.", "quantifier": "all flag lists, all values of the underlying type", "why_tests_cant": "Exponentially many combinations and arbitrary lists with repeated and compound flags.", "anchors": ["include/makeshift/detail/serialize.hpp: flags_to_string, make_flags_metadata"]}
{"id": "C07", "title": "parse_flags accepts exactly a delimited-list grammar", "statement": "parse_flags(s) succeeds iff after splitting s at every '+' or '|' each piece (except a blank last piece) is, up to surrounding whitespace, a listed name; the result is the bitwise OR of the values listed first under these names, where single-bit flags are listed before all others; otherwise it throws an error quoting the first offending piece.", "quantifier": "all input strings, all flag lists", "why_tests_cant": "The language of inputs is infinite, and corner cases (empty pieces, trailing delimiter, blank input) interact.", "anchors": ["include/makeshift/string.hpp: parse_flags", "include/makeshift/detail/serialize.hpp: flags_from_string"]}
{"id": "C08", "title": "Flags metadata reordering is lossless", "statement": "Preparing flags metadata lists every single-bit flag in declaration order before every other entry in declaration order, loses and duplicates no entry, and is rejected iff some listed flag has a bit that no single-bit flag provides.", "quantifier": "all flag lists of any length", "why_tests_cant": "Two-pass in-place partitioning over lists of any length.", "anchors": ["include/makeshift/detail/serialize.hpp: make_flags_metadata, is_power_of_2"]}
{"id": "C09", "title": "Stream extraction of enums consumes exactly one token", "statement": "stream >> as_enum(v) skips leading whitespace, consumes the maximal run of non-reserved characters and nothing after it; it sets v to the named value and keeps the stream good (or at eof) iff that run is a listed name, and otherwise sets failbit and leaves v unmodified.", "quantifier": "all stream contents and initial stream states, all enumerations, all initial v", "why_tests_cant": "Unbounded stream contents and positions.", "anchors": ["include/makeshift/iomanip.hpp: as_enum", "include/makeshift/detail/iomanip.hpp: bound_manipulator"]}
{"id": "C10", "title": "Stream extraction of flags consumes exactly one list", "statement": "stream >> as_flags(v) consumes leading whitespace and the maximal run of non-reserved characters and nothing after it; on a parse error it sets failbit and leaves v unmodified; otherwise v is the parsed combination. Extraction from a stream that has already failed does not modify v.", "quantifier": "all stream contents and stream states, all flag enumerations", "why_tests_cant": "Unbounded stream contents; error paths must preserve the target for every input.", "anchors": ["include/makeshift/iomanip.hpp: as_flags"]}
{"id": "C11", "title": "Written enum sequences can be read back", "statement": "For enumerations whose names are pairwise distinct and do not begin with a vertical tab or form feed: writing any sequence of listed enum values with as_enum, separated by whitespace (or, with explicit skipping, by any reserved character), and reading them back with as_enum yields the same sequence and consumes the whole text.", "quantifier": "all enumerations, all sequences of any length", "why_tests_cant": "Histories of arbitrary length; each read must leave the stream where the next one starts.", "anchors": ["include/makeshift/iomanip.hpp: as_enum"]}
{"id": "C12", "title": "expand never selects a wrong constant", "statement": "If expand/try_expand/expand_failfast(value, array) yields an alternative, the compile-time constant held by this alternative compares equal to the runtime value, whichever lookup strategy (offset, binary search, linear search) is chosen.", "quantifier": "all arrays of any length, all runtime values, all ordered or unordered element types", "why_tests_cant": "The lookup strategy depends on global properties of the array (contiguous, sorted); values are unbounded.", "anchors": ["include/makeshift/variant.hpp: expand, try_expand, expand_failfast", "include/makeshift/detail/variant.hpp: search_value_index, search_value_index_1, search_value_index_2"]}
{"id": "C13", "title": "expand finds every listed value and reports every unlisted one", "statement": "For integral and enum types, expand(value, array) succeeds iff value occurs in the array; otherwise try_expand yields nullopt, expand throws unsupported_runtime_value and expand_failfast terminates; no run exhibits undefined behaviour.", "quantifier": "all element widths and signednesses, all arrays, all runtime values including the extremes of the type", "why_tests_cant": "Extremes and wrap-around only occur for particular values of wide types.", "anchors": ["include/makeshift/variant.hpp: expand, try_expand, expand_failfast", "include/makeshift/detail/variant.hpp: are_values_contiguous, search_value_index_1, search_value_index_2"]}
{"id": "C14", "title": "expand is trustworthy for partially ordered values", "statement": "For element types whose < is only a partial order (floating point with NaN), expand never maps a runtime value to a constant that does not compare equal to it, and maps every listed self-equal value to a constant equal to it.", "quantifier": "all arrays and values of a type with an unordered element", "why_tests_cant": "NaN positions and search paths are combinatorial.", "anchors": ["include/makeshift/detail/variant.hpp: are_values_sorted, search_value_index_2"]}
{"id": "C15", "title": "expand over an enum's own metadata is exhaustive", "statement": "For a type whose reflected values are available, the one-argument expand(value) finds exactly the reflected values, and parse followed by expand yields the constant that was named.", "quantifier": "all reflected enumerations and values", "why_tests_cant": "Composes metadata extraction, serialisation and lookup over arbitrary enumerations.", "anchors": ["include/makeshift/variant.hpp: expand(T const&)", "include/makeshift/metadata.hpp: values"]}
{"id": "C16", "title": "variant_transform preserves the functor's result", "statement": "variant_transform(f, v1, ..., vn) calls f exactly once with the alternatives currently held, and the returned variant holds exactly f's result under f's result type; if the selected call returns void the call is made and then the program is terminated.", "quantifier": "any number of variants with any number of alternatives, all functors", "why_tests_cant": "Arity and alternatives are unbounded, result depends on a computed type list.", "anchors": ["include/makeshift/variant.hpp: variant_transform", "include/makeshift/detail/variant.hpp: variant_transform_result"]}
{"id": "C17", "title": "The result type of variant_transform covers exactly the possible results", "statement": "The alternatives of the result type are exactly the non-void result types of f over all combinations of alternatives, each listed once; the linear enumeration visits each combination exactly once.", "quantifier": "all shapes (number of variants and alternatives), all functors", "why_tests_cant": "Mixed-radix enumeration over arbitrary shapes.", "anchors": ["include/makeshift/detail/variant.hpp: compute_strides_, compute_size_, variant_transform_result_1_, variant_transform_result_", "include/makeshift/detail/type_traits.hpp: unique_sequence_, filter_sequence_"]}
{"id": "C18", "title": "variant_transform_many flattens without loss", "statement": "variant_transform_many(f, v...) holds exactly the alternative held by the variant f returns, and its alternatives are exactly the alternatives of all possible result variants, each once.", "quantifier": "all shapes, all functors returning variants", "why_tests_cant": "As above, plus flattening.", "anchors": ["include/makeshift/variant.hpp: variant_transform_many", "include/makeshift/detail/variant.hpp: flatten_variant_, variant_transform_many_result_"]}
{"id": "C19", "title": "Type-list deduplication keeps exactly one copy", "statement": "unique_sequence_t<S> contains each type of S exactly once and nothing else, and keeps the position of the last occurrence; filtering keeps exactly the types satisfying the predicate in order; concatenation preserves order.", "quantifier": "all type lists of any length", "why_tests_cant": "Recursive template metaprograms over lists of any length.", "anchors": ["include/makeshift/type_traits.hpp: unique_sequence", "include/makeshift/detail/type_traits.hpp: unique_sequence_, filter_sequence_, type_sequence_cat_", "include/makeshift/utility.hpp: type_sequence_cat"]}
{"id": "C20", "title": "Type lookup in type lists is exact", "statement": "search_type_pack_index<T, Ts...> is the position of T if T occurs exactly once and negative otherwise; search_tuple_element_index likewise; search_first_tuple_element_index is the first position; is_in<T, Ts...> and is_in_v<T, Ts...> hold iff T occurs.", "quantifier": "all types and type lists", "why_tests_cant": "Overload-resolution based lookups over lists of any length.", "anchors": ["include/makeshift/type_traits.hpp: search_type_pack_index, search_tuple_element_index, search_first_tuple_element_index, is_in, is_in_v", "include/makeshift/detail/type_traits.hpp: try_type_pack_index_, search_tuple_element_index_0, is_in_"]}
{"id": "C21", "title": "Size agreement of zipped ranges does not depend on argument order", "statement": "Combining ranges is accepted iff all known sizes agree; the common size is then that size, whatever the order of the arguments and whichever sizes are known statically, dynamically or not at all.", "quantifier": "any number of ranges in any order with static, dynamic or unknown sizes", "why_tests_cant": "Permutations of arbitrarily many arguments of three kinds.", "anchors": ["include/makeshift/detail/zip.hpp: merge_sizes_0, merge_sizes, range_size"]}
{"id": "C22", "title": "range_zip iterates exactly the pointwise tuples", "statement": "For ranges of equal length, at least one of which knows its size: iterating range_zip(r1, ..., rn) from begin() to end() visits exactly size() elements, the k-th being the tuple of the k-th elements of all ranges (and k for range_index), in order, without accessing any range out of bounds. Ranges whose known sizes differ are rejected, as are ranges none of which knows its size.", "quantifier": "any number of ranges of any common length and any kind", "why_tests_cant": "Unbounded lengths and arities, mixed iterator kinds.", "anchors": ["include/makeshift/algorithm.hpp: range_zip", "include/makeshift/detail/algorithm.hpp: zip_iterator_base, zip_range", "include/makeshift/detail/zip.hpp: range_iterator_leaf"]}
{"id": "C23", "title": "Zip iterators obey random-access iterator laws", "statement": "For iterators within [begin, end]: (it + n) - it == n, it[n] equals *(it + n), ++/-- are inverse, comparisons agree with difference, for any mix of underlying range kinds, starting from begin().", "quantifier": "all positions, offsets and mixes of range kinds", "why_tests_cant": "Laws over all positions and offsets.", "anchors": ["include/makeshift/detail/algorithm.hpp: zip_iterator_base"]}
{"id": "C24", "title": "A zipped range can be traversed from either end", "statement": "end() - k and begin() + (size() - k) dereference to the same element for all 1 <= k <= size(), for all range kinds that permit decrementing.", "quantifier": "all lengths, positions and range kinds", "why_tests_cant": "Reverse traversal over all container kinds.", "anchors": ["include/makeshift/detail/zip.hpp: range_iterator_leaf (end_tag constructors)", "include/makeshift/detail/algorithm.hpp: zip_range_base::end"]}
{"id": "C25", "title": "Mismatched lengths are detected and never overrun", "statement": "range_for over ranges of which some do not know their size calls the functor on each of the first m positions (m = shortest length) and then terminates with a contract violation iff the lengths differ; no range is read beyond its end. The same holds when iterating range_zip of such ranges.", "quantifier": "all lengths and mixes of sized and unsized ranges", "why_tests_cant": "Depends on all lengths and the order in which end conditions are compared.", "anchors": ["include/makeshift/algorithm.hpp: range_for", "include/makeshift/detail/zip.hpp: is_end, range_iterator_leaf::_check_end", "include/makeshift/detail/algorithm.hpp: zip_iterator_sentinel"]}
{"id": "C26", "title": "Iterator category of a zip is the weakest one", "statement": "The iterator category of a zipped range is the strongest standard category that all zipped ranges provide.", "quantifier": "any number of ranges with any categories", "why_tests_cant": "Bit-mask arithmetic folded over arbitrarily many arguments.", "anchors": ["include/makeshift/detail/zip.hpp: fill_mask, cbitand, bit_width, common_iterator_tag"]}
{"id": "C27", "title": "Range reductions are left folds", "statement": "range_transform_reduce, range_reduce and range_count_if equal the left-to-right fold over the pointwise tuples (count of satisfying tuples), with the functors called once per element in order until one fails; if the lengths of the ranges differ, this holds up to the shortest one, followed by a contract violation.", "quantifier": "all lengths, values, functors, including stateful ones", "why_tests_cant": "Arbitrary functors and lengths; non-commutative reductions expose order.", "anchors": ["include/makeshift/algorithm.hpp: range_transform_reduce, range_reduce, range_count_if"]}
{"id": "C28", "title": "Range predicates short-circuit", "statement": "range_all_of/any_of/none_of equal the quantified predicate over pointwise tuples, and the predicate is invoked exactly on the prefix up to and including the first deciding element.", "quantifier": "all lengths, all (stateful) predicates", "why_tests_cant": "Evaluation-order claims over all inputs.", "anchors": ["include/makeshift/algorithm.hpp: range_all_of, range_any_of, range_none_of"]}
{"id": "C29", "title": "Range generators write every element once", "statement": "range_iota/fill/generate overwrite exactly the elements of the range in order with the expected values and leave no element unwritten; for range_iota, the value following the last one must exist in the type, too.", "quantifier": "all lengths, all start values, all generators", "why_tests_cant": "Arbitrary lengths and stateful generators.", "anchors": ["include/makeshift/algorithm.hpp: range_iota, range_fill, range_generate"]}
{"id": "C30", "title": "shuffle permutes, and can produce every permutation", "statement": "shuffle rearranges the range into a permutation of its elements for every random source; each permutation arises from exactly one sequence of random draws, so uniform draws give a uniform permutation; draws are requested with the correct bounds.", "quantifier": "all ranges, all random draws", "why_tests_cant": "Randomised: quantifies over all draw sequences and all lengths.", "anchors": ["include/makeshift/algorithm.hpp: shuffle"]}
{"id": "C31", "title": "apply_permutation rearranges as specified", "statement": "If indices is a permutation of 0..n-1 and n is representable in the index type, apply_permutation(first, last, indices) leaves in position i the element formerly at indices[i], and leaves indices equal to the identity.", "quantifier": "all lengths, all permutations, all element types", "why_tests_cant": "n! permutations for each n.", "anchors": ["include/makeshift/experimental/algorithm.hpp: apply_permutation"]}
{"id": "C32", "title": "apply_reverse_permutation rearranges as specified", "statement": "If indices is a permutation of 0..n-1 and n is representable in the index type, apply_reverse_permutation(first, last, indices) leaves in position indices[i] the element formerly at i, leaves indices equal to the identity, and undoes apply_permutation with the same indices.", "quantifier": "all lengths, all permutations, all element types", "why_tests_cant": "n! permutations for each n.", "anchors": ["include/makeshift/experimental/algorithm.hpp: apply_reverse_permutation"]}
{"id": "C33", "title": "Invalid permutations are detected", "statement": "Both permutation algorithms terminate for every index array of n entries (n representable in the index type); they end in a contract violation iff the array is not a permutation of 0..n-1; no element or index outside the ranges is accessed, and at every point the elements are a rearrangement of the originals.", "quantifier": "all index arrays including out-of-range, negative and duplicated entries", "why_tests_cant": "Non-termination and out-of-bounds for malformed input are only excluded by proof.", "anchors": ["include/makeshift/experimental/algorithm.hpp: apply_permutation, apply_reverse_permutation"]}
{"id": "C34", "title": "template_for visits elements once and in order", "statement": "template_for(f, t1, ..., tn) calls f exactly once per element index in increasing order with the elements of all tuples at that index (and the index itself for tuple_index).", "quantifier": "all tuple sizes and arities, all stateful functors", "why_tests_cant": "Order and multiplicity over all sizes.", "anchors": ["include/makeshift/tuple.hpp: template_for", "include/makeshift/detail/tuple-transform.hpp: template_for_impl, tuple_transform_size"]}
{"id": "C35", "title": "tuple and array transforms are pointwise", "statement": "tuple_transform/array_transform(f, t1, ..., tn) has as k-th element f applied to the k-th elements; sizes must agree; array_transform invokes f in index order.", "quantifier": "all sizes, arities and functors", "why_tests_cant": "Unbounded sizes and arities.", "anchors": ["include/makeshift/tuple.hpp: tuple_transform", "include/makeshift/array.hpp: array_transform", "include/makeshift/detail/tuple.hpp: tuple_transform_impl", "include/makeshift/detail/array.hpp: array_transform_impl"]}
{"id": "C36", "title": "Tuple reductions and predicates are left folds with short circuit", "statement": "template_transform_reduce/template_reduce are left folds starting with the initial value; template_all_of/any_of/none_of evaluate the predicate on the shortest deciding prefix only.", "quantifier": "all sizes and functors", "why_tests_cant": "Order of evaluation over all inputs.", "anchors": ["include/makeshift/tuple.hpp: template_transform_reduce, template_reduce, template_all_of, template_any_of, template_none_of", "include/makeshift/detail/tuple.hpp: transform_reduce_fn, conjunction_fn"]}
{"id": "C37", "title": "Concatenation preserves order and content", "statement": "tuple_cat and array_cat of any number of tuples/arrays contain exactly the elements of the arguments in order; array_iota (if the value following the last one exists in the type, too) and array_fill produce the expected sequences.", "quantifier": "any number of arguments of any size", "why_tests_cant": "Unbounded arity and size.", "anchors": ["include/makeshift/tuple.hpp: tuple_cat", "include/makeshift/array.hpp: array_cat, array_fill, array_iota", "include/makeshift/detail/tuple.hpp: tuple_cat_impl", "include/makeshift/detail/array.hpp: array_cat_impl"]}
{"id": "C38", "title": "value_tuple comparisons form a consistent order", "statement": "For value_tuple: a == b iff all elements are equal, a != b is the negation of a == b, < is the lexicographic strict weak order of the element orders, and >, <=, >= agree with it.", "quantifier": "all tuples of any size over totally ordered element types", "why_tests_cant": "Consistency laws over all pairs and triples of values.", "anchors": ["include/makeshift/detail/tuple.hpp: value_tuple_base operators ==, !=, <, >, <=, >="]}
{"id": "C39", "title": "Metadata lookup finds the right record", "statement": "name() is the first and description() the second string-like entry of a type's metadata wherever they are placed, values() and value_names() are aligned entry by entry, and absence is reported as nullopt rather than as a wrong entry.", "quantifier": "all metadata tuples of any shape and order", "why_tests_cant": "Metadata may be nested and ordered arbitrarily.", "anchors": ["include/makeshift/metadata.hpp: name, description, values, value_names, value_descriptions", "include/makeshift/detail/metadata.hpp: record_index, extract_metadata, extract_values, extract_value_metadata"]}
{"id": "C40", "title": "Index lookup in metadata returns the first match or fails", "statement": "search_value_index returns the least index holding the value, -1 iff there is none; find_value_index returns the same or terminates; the by-name variants return the entry at the least index with that name.", "quantifier": "all value/name lists and queries", "why_tests_cant": "All lists and queries.", "anchors": ["include/makeshift/metadata.hpp: search_value_index, find_value_index, search_value_by_name, find_value_by_name", "include/makeshift/detail/metadata.hpp: search_index"]}
{"id": "C41", "title": "members() lists inherited members first, without loss", "statement": "members<T>() contains exactly the members of all (transitive) reflected bases in declaration order followed by the exclusive members of T, if all these classes are reflected and there are fewer than 2^64 members.", "quantifier": "all class hierarchies of any depth and width", "why_tests_cant": "Hierarchies of arbitrary depth.", "anchors": ["include/makeshift/metadata.hpp: members, exclusive_members, bases", "include/makeshift/detail/metadata.hpp: all_members, extract_members, extract_bases"]}
{"id": "C42", "title": "Member names are aligned with members", "statement": "member_names<T>()[i] is the name under which members<T>()[i] was reflected, for every i; hence find_member_by_name<T>(n) returns a member reflected under the name n.", "quantifier": "all class hierarchies of any depth and width", "why_tests_cant": "Only hierarchies deeper than those in the tests reveal misalignment.", "anchors": ["include/makeshift/metadata.hpp: member_names, find_member_by_name, search_member_by_name", "include/makeshift/detail/metadata.hpp: extract_all_member_metadata, all_members"]}
{"id": "C43", "title": "tie_members reads and writes exactly the members", "statement": "Reading tie_members(x) yields the values of members<T>() in order; assigning to it updates exactly these members; tie_members_by_name(x, names) ties the members with these names in the order of names, so assigning one object's tie to another's copies by name irrespective of layout.", "quantifier": "all objects, member lists and name lists", "why_tests_cant": "Arbitrary layouts and name orders.", "anchors": ["include/makeshift/tuple.hpp: tie_members, tie_members_by_name", "include/makeshift/detail/tuple.hpp: tie_members_functor"]}
{"id": "C44", "title": "Constval normalisation preserves value and is idempotent", "statement": "Normalising a compile-time constant (integral, array, tuple, nested, type sequence, or opaque) yields a constval with the same value, and normalising again changes nothing; get<I>() of the constant is the constant of the element.", "quantifier": "all constant values, nested to any depth", "why_tests_cant": "Nesting depth is unbounded.", "anchors": ["include/makeshift/constval.hpp: make_constval", "include/makeshift/detail/constval.hpp: make_constval_, constant_"]}
{"id": "C45", "title": "Constval lifting commutes with evaluation", "statement": "constval_transform(f, c...) is a constval of f(c()...) ; constval_extend yields a constval iff all arguments are constvals and otherwise the plain value, with the same value in both cases; constval_extract returns the value.", "quantifier": "all functions and arguments, any mix of constvals and runtime values", "why_tests_cant": "All mixes of arguments.", "anchors": ["include/makeshift/constval.hpp: constval_transform, constval_extend, constval_extract", "include/makeshift/detail/constval.hpp"]}
{"id": "C46", "title": "csize/cssize agree with the run-time size", "statement": "For sizes representable in std::ptrdiff_t and in the size type of the container, csize(t)/cssize(t) equals the number of elements whether the size is known from the type or only at run time; cssize() of larger static sizes is rejected.", "quantifier": "all containers and tuples", "why_tests_cant": "All sizes and kinds.", "anchors": ["include/makeshift/constval.hpp: csize, cssize"]}
{"id": "C47", "title": "Index ranges enumerate exactly their interval", "statement": "Iterating index_range(first, last) yields first, first+1, ..., last-1 in order; construction with last < first or negative count is a contract violation; index iterators obey random-access laws.", "quantifier": "all representable bounds", "why_tests_cant": "All pairs of bounds incl. empty and extreme ones.", "anchors": ["include/makeshift/ranges.hpp: index_range", "include/makeshift/iterator.hpp: index_iterator"]}
{"id": "C48", "title": "range<> element access is bounds-checked", "statement": "range(first, last)[i] refers to the element i positions after first iff i < size(), and is a contract violation otherwise; size() and iteration agree with the sequence; static extents agree with the dynamic size.", "quantifier": "all ranges and indices", "why_tests_cant": "All sizes and indices.", "anchors": ["include/makeshift/ranges.hpp: range, make_range", "include/makeshift/detail/ranges.hpp: random_access_range_base, static_range_base"]}
{"id": "C49", "title": "buffer never leaks, double-frees or aliases", "statement": "In every history of constructing, copying, writing, reading and destroying buffers of any configuration, every heap block is freed exactly once, no freed or foreign storage is accessed, and writing to one buffer never changes another.", "quantifier": "all histories of operations, all extents and small-buffer limits", "why_tests_cant": "Histories of arbitrary length over several interacting objects.", "anchors": ["include/makeshift/experimental/buffer.hpp: buffer", "include/makeshift/experimental/detail/buffer.hpp: dynamic_buffer_base, static_buffer_base"]}
{"id": "C50", "title": "buffer placement follows its configuration", "statement": "A buffer uses heap storage iff the number of elements exceeds the configured in-place limit (with the documented meaning of -1), and size() always equals the requested number.", "quantifier": "all extents and limits", "why_tests_cant": "All combinations of static/dynamic extents and limits.", "anchors": ["include/makeshift/experimental/detail/buffer.hpp: determine_memory_location, buffer_base, dynamic_buffer_base"]}
{"id": "C51", "title": "buffer elements are value-initialised", "statement": "Every element of a freshly constructed buffer is value-initialised, wherever the storage is placed.", "quantifier": "all extents and limits", "why_tests_cant": "Indeterminate values may look right in a test run.", "anchors": ["include/makeshift/experimental/detail/buffer.hpp: dynamic_buffer_base, static_buffer_base"]}
{"id": "C52", "title": "fixed_buffer never exceeds its capacity", "statement": "Every way of constructing or assigning a fixed_buffer either stays within its capacity or is a contract violation.", "quantifier": "all extents, capacities and source arrays", "why_tests_cant": "Out-of-bounds writes may go unnoticed in tests.", "anchors": ["include/makeshift/experimental/buffer.hpp: fixed_buffer", "include/makeshift/experimental/detail/buffer.hpp: check_fixed_buffer_extents"]}
{"id": "C53", "title": "soa_span behaves as a span of tuples", "statement": "soa_span(s1, ..., sn) is accepted iff all spans have the same length; element k reads the k-th elements of all spans and, if the spans have no elements in common, writes exactly these; iteration visits all in order; out-of-range subscripts are contract violations.", "quantifier": "any number of spans of any length", "why_tests_cant": "Unbounded lengths and arity.", "anchors": ["include/makeshift/experimental/span.hpp: soa_span", "include/makeshift/experimental/detail/span.hpp: soa_reference, soa_span_iterator, check_all_equal"]}
{"id": "C54", "title": "soa_span::empty, front and back agree with its size", "statement": "empty() holds iff size() == 0; front()/back() refer to the first/last element of every non-empty span and are contract violations on an empty one.", "quantifier": "all spans", "why_tests_cant": "Must hold for all lengths.", "anchors": ["include/makeshift/experimental/span.hpp: soa_span::empty, front, back"]}
{"id": "C55", "title": "soa_span sub-spans are windows", "statement": "subspan(o, c), first(c), last(c) denote exactly the elements o..o+c-1, are contract violations iff the window does not fit, and compose: subspan of subspan is the subspan with added offsets.", "quantifier": "all spans, offsets and counts incl. the 'rest' marker", "why_tests_cant": "All offsets and counts incl. overflow-prone ones.", "anchors": ["include/makeshift/experimental/span.hpp: soa_span::subspan, first, last"]}
{"id": "C56", "title": "Swapping soa references swaps whole tuples", "statement": "For spans of modifiable elements that have no elements in common: swap and assignment through soa_span references exchange/copy all components of the two elements and nothing else; hence any sequence of swaps permutes the tuples.", "quantifier": "all spans, positions and sequences of swaps", "why_tests_cant": "Histories of arbitrary length.", "anchors": ["include/makeshift/experimental/detail/span.hpp: swap, soa_reference::operator="]}
{"id": "C57", "title": "with<I> replaces exactly one element", "statement": "with<I>(t, x) equals t except that element I is x; all other elements keep type and value.", "quantifier": "all tuples, indices and new elements", "why_tests_cant": "Heterogeneous tuples of any size.", "anchors": ["include/makeshift/experimental/tuple.hpp: with", "include/makeshift/experimental/detail/tuple.hpp: replace_element, with_element"]}
{"id": "C58", "title": "single_or_default finds the unique match", "statement": "single(t, pred) returns the only element whose type satisfies pred and is ill-formed if there is none or several; single_or_default returns that element, or the default iff there is none.", "quantifier": "all tuples and predicates", "why_tests_cant": "All tuples and predicates.", "anchors": ["include/makeshift/experimental/tuple.hpp: single, single_or_default"]}
{"id": "C59", "title": "variant_cat_t concatenates all its arguments", "statement": "variant_cat_t<V1, ..., Vn> has exactly the alternatives of V1, ..., Vn in order.", "quantifier": "any number of variants", "why_tests_cant": "Unbounded arity.", "anchors": ["include/makeshift/experimental/variant.hpp: variant_cat_t", "include/makeshift/experimental/detail/variant.hpp: variant_cat_"]}
{"id": "C60", "title": "Monostate/optional conversions are inverse", "statement": "For alternatives that are pairwise distinct, optional_to_variant(variant_to_optional(v)) == v and vice versa; variant_cast keeps the held value if every alternative of the source occurs exactly once among those of the target; other uses are rejected at compile time.", "quantifier": "all variants", "why_tests_cant": "All alternative lists and values.", "anchors": ["include/makeshift/experimental/variant.hpp: variant_to_optional, optional_to_variant, variant_cast"]}
{"id": "C61", "title": "Type enums identify their types", "statement": "For lists of fewer than 24 distinct types: a type_enum constructed from type_c<T> compares equal to type_c<U> iff T is U; construction from an integer is a contract violation iff out of range; distinct types have distinct values. Longer lists are rejected, as are types that are not listed or listed twice.", "quantifier": "all type lists and types", "why_tests_cant": "All lists.", "anchors": ["include/makeshift/experimental/enum.hpp: define_type_enum, type_enum", "include/makeshift/experimental/detail/enum.hpp: define_type_enum_base", "include/makeshift/experimental/utility.hpp: type_tag"]}
{"id": "C62", "title": "Flag queries are bitwise exact", "statement": "has_flag/has_any_flag_of/has_no_flag_of/has_all_flags_of(h, n) hold iff the corresponding statement about individual bits holds; single-flag checks accept exactly powers of two.", "quantifier": "all widths and bit patterns", "why_tests_cant": "2^64 x 2^64 pairs.", "anchors": ["include/makeshift/experimental/enum.hpp: has_flag, has_any_flag_of, has_no_flag_of, has_all_flags_of", "include/makeshift/experimental/detail/enum.hpp: is_flag_power_of_2", "include/makeshift/detail/serialize.hpp: is_power_of_2"]}
{"id": "C63", "title": "y_combinator computes the recursion", "statement": "make_y_combinator(f)(x) equals the value of the recursive function defined by f on every argument on which the recursion terminates.", "quantifier": "all functionals and arguments", "why_tests_cant": "Recursion depth is unbounded.", "anchors": ["include/makeshift/functional.hpp: y_combinator, make_y_combinator", "include/makeshift/detail/functional.hpp: y_combinator_func_ref"]}
{"id": "C64", "title": "Concatenation indices are decomposed bijectively", "statement": "When several tuples/arrays are concatenated, position i of the result is taken from argument row(i) at col(i); for i below the total size this is a valid argument and position, consecutive positions walk through the arguments in order (empty ones are skipped), and every (argument, position) pair is hit exactly once; beyond the total size the computation is rejected instead of reading past the size table.", "quantifier": "any number of arguments with any sizes (including empty ones), all positions", "why_tests_cant": "All size lists and positions, with empty arguments in any place.", "anchors": ["include/makeshift/detail/indices-2d.hpp: indices_2d_::size, row, col, cadd"]}
{"id": "C65", "title": "Flag combinations in streams are read back", "statement": "Any sequence of flag combinations written with as_flags(), each followed by a reserved character and optional whitespace, is read back with as_flags() as the same sequence, skipping one character after each.", "quantifier": "all flag types with names that can be written, all sequences of combinations of any length, all separators", "why_tests_cant": "Sequences of any length over 2^n combinations.", "anchors": ["include/makeshift/iomanip.hpp: as_flags", "include/makeshift/detail/serialize.hpp: flags_to_string, flags_from_string"]}
{"id": "C66", "title": "Manipulators forward their arguments", "statement": "`stream << m(args...)` and `stream >> m(args...)` for a manipulator m made from functors call the respective functor once, with the stream and the arguments in order: lvalues are passed as themselves, rvalues as objects of their own; no other object is changed. The manipulators returned by as_enum() and as_flags() can be used likewise.", "quantifier": "all functors, all numbers and kinds of arguments, all object lifetimes", "why_tests_cant": "All functors and argument lists; lifetime errors are not visible in test results.", "anchors": ["include/makeshift/iomanip.hpp: make_manipulator, as_enum, as_flags", "include/makeshift/detail/iomanip.hpp: manipulator, bound_manipulator"]}
{"id": "C67", "title": "Tuple and array algorithms respect value categories", "statement": "With functors that may move from the elements they receive as rvalues (and touch nothing else), every call sees the elements as they were before the algorithm was called, in whatever order the calls are made, even if the same tuple is passed several times as an lvalue; tuples passed as lvalues keep their elements. Concatenation copies from lvalues and moves each element of an rvalue exactly once.", "quantifier": "all functors of that kind, all numbers, sizes and value categories of tuples, all evaluation orders", "why_tests_cant": "Reads of moved-from elements depend on the order of evaluation and on the element type; tests see one of them.", "anchors": ["include/makeshift/tuple.hpp: template_for, tuple_transform, template_all_of, template_any_of, template_none_of, template_transform_reduce, tuple_cat", "include/makeshift/array.hpp: array_transform, array_cat", "include/makeshift/detail/tuple-transform.hpp: get"]}
{"id": "C68", "title": "apply() is INVOKE with the elements of the tuple", "statement": "apply(f, t) has the effects and the result of INVOKE(f, t0, t1, ...), also if f is a pointer to a member function or data member and t0 is an object of the class or of a class derived from it, a std::reference_wrapper<> or a pointer; it is rejected at compile time if that has no meaning.", "quantifier": "all callables, class hierarchies and tuples of any size", "why_tests_cant": "All combinations of callables and first arguments, any number of elements.", "anchors": ["include/makeshift/tuple.hpp: apply", "include/makeshift/detail/tuple.hpp: invoke, invoke_memptr, apply_impl"]}
{"id": "C69", "title": "make_range() makes the range its arguments describe", "statement": "make_range(first, last) is the range of the elements from first up to last, for all iterators; make_range(start, n) is the range of n elements from start, of static extent if n is an integral constant.", "quantifier": "all sequences, positions, iterator types and extents", "why_tests_cant": "Overload resolution for all iterator types; the library has no test of it.", "anchors": ["include/makeshift/ranges.hpp: make_range", "include/makeshift/detail/ranges.hpp: range_extent_from_constval"]}
{"id": "C70", "title": "Concepts agree with traits", "statement": "The concepts tuple_like, bitmask and constval hold for exactly the types for which the traits is_tuple_like, is_bitmask and is_constval do; is_bitmask holds for exactly the types whose operators ~ | & ^ |= &= ^= exist for const operands and give the type or a reference to it.", "quantifier": "all types, whatever their operators and members", "why_tests_cant": "Every type is another case; the library's tests only include the header.", "anchors": ["include/makeshift/concepts.hpp: tuple_like, bitmask, constval", "include/makeshift/detail/type_traits.hpp: is_tuple_like, is_bitmask, is_constval_"]}
{"id": "C71", "title": "Functor wrappers restrict value categories", "statement": "A functor wrapped by rvalue_ref_fn or lvalue_ref_fn can be called only as non-const rvalue or non-const lvalue, with the effects of the functor called that way; wrapped by lvalue_const_ref_fn, every sequence of calls calls the functor as const lvalue and leaves a const-correct functor unchanged.", "quantifier": "all functors, value categories and sequences of calls", "why_tests_cant": "All functors; calls to be rejected cannot be tested at run time.", "anchors": ["include/makeshift/experimental/functional.hpp: rvalue_ref_fn, lvalue_ref_fn, lvalue_const_ref_fn"]}
{"id": "C72", "title": "forward_to() calls with the value category of the wrapper", "statement": "Every sequence of calls of forward_to(f) behaves like calling the function returned by f, called with the value category of the wrapper; f may expect a function that forwards what it captured.", "quantifier": "all functors, value categories and sequences of calls", "why_tests_cant": "All functors and categories; the library has no test of it.", "anchors": ["include/makeshift/experimental/functional.hpp: forward_to", "include/makeshift/experimental/detail/functional.hpp: forward_to_impl, lvalue_capture_forwarder, rvalue_capture_forwarder"]}
{"id": "C73", "title": "Variant transformations respect value categories", "statement": "visit(), variant_transform() and variant_transform_many() call the functor once, with the value category of the functor argument, with references to the alternatives held by the variants (no copies), with the value categories of the variants; variants passed as const or not passed are untouched by functors that write only through the references they receive. variant_transform() is well-formed exactly if every combination can be called with these categories, at least one result is not void and all results can be stored.", "quantifier": "all functors, variant types, value categories, memory states; the same variant may be passed several times", "why_tests_cant": "The product of alternatives, categories and functor overloads cannot be enumerated.", "anchors": ["include/makeshift/variant.hpp: visit, variant_transform, variant_transform_many", "include/makeshift/detail/variant.hpp: nth_variant_type_, variant_transform_result_1_"]}
{"id": "C74", "title": "range_zip() refers to lvalue arguments and keeps rvalue arguments; algorithms take both", "statement": "The elements reached through range_zip() are those of the arguments that are lvalues (const if the argument is a const container), and elements of objects kept in the zipped range for arguments that are rvalues, so that the documented loop over range_zip(range_index, std::array{ 1, 2, 3 }) works; nothing else is changed or copied; a zipped range of lvalues can be copied, assigned and destroyed without effect on the arguments and without invalidating iterators. range_for() and the other algorithms accept arguments of any value category, and built-in arrays, and pass references to their elements.", "quantifier": "any number of arguments of any kinds and value categories, any memory contents, views and containers", "why_tests_cant": "Value categories, constness and lifetimes combine for any number of arguments; dangling references are not observable by a test that happens to pass, and ill-formed combinations cannot be part of a test program.", "anchors": ["include/makeshift/algorithm.hpp: range_zip, range_for, range_transform_reduce, range_count_if, range_all_of, range_any_of, range_none_of", "include/makeshift/detail/algorithm.hpp: zip_range_base, zip_common_range", "include/makeshift/detail/zip.hpp: range_iterator_leaf_mode_, range_iterator_category_, zip_iterator_leaf_base"]}
{"id": "C75", "title": "Rearrangements survive interruption", "statement": "If a swap of elements or the random number generator throws in the middle of shuffle(), apply_permutation() or apply_reverse_permutation(), no element is lost or duplicated (apart from the two that a throwing swap may have damaged), whatever the indices are; and calling the permutation algorithm again with the indices left behind completes the rearrangement that the first call was to do, after any number of failed attempts.", "quantifier": "all elements, iterators, index arrays, and points at which a swap or the generator throws; any sequence of attempts", "why_tests_cant": "Every swap of every call is a point of failure, and attempts may fail repeatedly; the tests swap integers, which never throws.", "anchors": ["include/makeshift/algorithm.hpp: shuffle", "include/makeshift/experimental/algorithm.hpp: apply_permutation, apply_reverse_permutation"]}
{"id": "C76", "title": "Permutation algorithms rearrange whatever the iterators refer to", "statement": "shuffle(), apply_permutation() and apply_reverse_permutation() work for any random access iterators whose elements can be swapped, in particular those of soa_span<>: the tuples between the iterators are rearranged as the elements of an array would be, all other tuples and all elements that no span refers to are left alone, invalid index arrays are detected, and spans of const elements are rejected.", "quantifier": "all memory contents, numbers and types of spans, subranges, index arrays and sequences of draws", "why_tests_cant": "Any number of columns and elements, any subrange and permutation.", "anchors": ["include/makeshift/algorithm.hpp: shuffle", "include/makeshift/experimental/algorithm.hpp: apply_permutation, apply_reverse_permutation", "include/makeshift/experimental/detail/span.hpp: soa_span_iterator, soa_reference, swap"]}
{"id": "C77", "title": "Extraction from streams with exception masks and failing buffers", "statement": "Extracting an enum or flags from any stream, whatever its state, exception mask and buffer: the stream's state bits are never cleared and its exception mask is kept; an exception leaves the operator only if it was thrown by the buffer or reports state bits that the mask contains; if the operator returns normally or throws, the variable has either its old value or the value of a complete token that was read; a good stream that delivers its characters without errors gives the same result as without exceptions; no character of a token is lost.", "quantifier": "all buffers (any sequence of characters, ends and exceptions), states, exception masks and metadata", "why_tests_cant": "Each character is a point at which the buffer may throw, combined with all masks and states; the tests use string streams without exceptions.", "anchors": ["include/makeshift/iomanip.hpp: as_enum, as_flags", "include/makeshift/detail/iomanip.hpp: enum_from_stream, flags_from_stream, string_to_enum, string_to_flags"]}
{"id": "C78", "title": "Padding does not change what is read back", "statement": "Enums and flags written with any width, fill character and adjustment are padded to exactly that width (longer texts are not cut), the width is reset, nothing else of the stream's formatting state changes; any sequence of values written in columns, padded with spaces, is read back unchanged, provided that names are unique, do not begin with whitespace and, for flags, do not contain delimiters.", "quantifier": "all metadata, widths, adjustments, fill characters, and sequences of values of any length", "why_tests_cant": "Unbounded sequences of values, any widths; the tests write single values without width.", "anchors": ["include/makeshift/iomanip.hpp: as_enum, as_flags", "include/makeshift/detail/iomanip.hpp: enum_to_stream, flags_to_stream"]}
{"id": "C79", "title": "overload() calls the best match", "statement": "A call of functors combined with overload() calls the one operator that matches the arguments best, on the functor that has it, regardless of the order of the functors and of whether they have been combined before; an exact match is preferred to a generic functor, which serves as a fallback; the captures of the other functors are left alone; ambiguous calls, functors of the same type and functors that are no classes are rejected.", "quantifier": "any number of functors with any number of operators, any argument types and conversions", "why_tests_cant": "All sets of functors and all argument types; ill-formed calls cannot be part of a test program. overload() has no test.", "anchors": ["include/makeshift/functional.hpp: overload"]}
{"id": "C80", "title": "Runtime values are dispatched to the right constants", "statement": "visit(f, expand(v1, values1), expand(v2, values2), ...) calls f exactly once, with constants that have exactly the values v1, v2, ..., in this order, and passes on its outcome, if all values are listed; otherwise f is not called and unsupported_runtime_value is thrown (or the program ends, with expand_failfast()), in whatever order the arguments are evaluated. In no case is f called with other constants. Any number of booleans can be dispatched without failure. variant_transform() instead of visit() yields the variant that holds the result of f for these constants.", "quantifier": "any number of runtime values of any integral and enum types, all lists of constants, functors, and orders of evaluation", "why_tests_cant": "The combinations of values, lists and evaluation orders are unbounded.", "anchors": ["include/makeshift/variant.hpp: expand, expand_failfast, visit, variant_transform", "include/makeshift/detail/variant.hpp: constval_variant_map, search_value_index"]}
{"id": "C81", "title": "Range algorithms use iterators by the single-pass protocol", "statement": "Whatever the ranges and functors do, every range algorithm calls size(), begin() and end() of each range once and in this order, before anything else; an iterator without known size is compared with the end before every dereferencing; it is dereferenced once per call of the functor, before the call, and the functor gets exactly what was obtained; it is incremented once, after the call, and not after the call that decides the result of range_all_of(), range_any_of() or range_none_of(). The first failing operation ends the call and its failure is passed on (an exception from size() terminates the program). No iterator is dereferenced more often than any known size says. The results are determined by the answers of the functors. On ranges that behave as sequences the outcome is that of the model with positions. range_iota(), range_fill(), range_generate() and range_reduce() perform the same rounds. Ranges whose sizes are known to differ at compile time are rejected, and so is zipping ranges none of which has a known size.", "quantifier": "all numbers and kinds of ranges, all behaviours of their operations and of the functors (values, exceptions, dependence on the past), all evaluation orders of function arguments, infinite ranges included", "why_tests_cant": "The behaviours of user-supplied iterators and functors and the points of failure are unbounded; the tests use containers.", "anchors": ["include/makeshift/algorithm.hpp: range_for, range_iota, range_fill, range_generate, range_transform_reduce, range_reduce, range_count_if, range_all_of, range_any_of, range_none_of, range_zip", "include/makeshift/detail/algorithm.hpp: zip_iterator, zip_iterator_sentinel", "include/makeshift/detail/zip.hpp: range_iterator_leaf, range_size"]}
{"id": "C82", "title": "Elements of buffers are constructed once and destroyed once, whatever throws", "statement": "In every history of constructions, copies, assignments, accesses and destructions of buffer<> and fixed_buffer<> objects, where any constructor or assignment of an element and any allocation may throw: no element is constructed twice, nor used, assigned or destroyed while it does not exist; no memory is released twice or while it holds elements; constructor and destructor calls differ by exactly the elements of the buffers that exist; when all buffers have been destroyed, all elements have been, and all memory is released. An operation that fails leaves all buffers as they are, destroys what it has constructed and keeps no memory. Destroying a buffer never fails. A new buffer has the size asked for, and its elements are all new and usable. Assignment and access construct and destroy nothing. Arrays passed to the constructor of a fixed_buffer<> of dynamic size must fit (not checked, see C52).", "quantifier": "all histories of operations on any number of buffers of any types and sizes, and all choices of the operations that throw", "why_tests_cant": "The points at which exceptions are thrown multiply with the history and the sizes; the tests throw nowhere and do not count element lifetimes.", "anchors": ["include/makeshift/experimental/buffer.hpp: buffer, fixed_buffer", "include/makeshift/experimental/detail/buffer.hpp: static_buffer_base, dynamic_buffer_base, memory management"]}
{"id": "C83", "title": "Transformed arrays have the result type of the functor, or convert without loss", "statement": "Without an element type, array_transform(f, args...) returns an array whose elements are the results of f; for tuples it is accepted if and only if all calls return the same non-reference type, which is the element type, and for arrays and indices the element type is the return type of f without reference and const, regardless of the number of elements. With an element type T, the elements are the results converted to T; the call is accepted if and only if all conversions are possible without narrowing, so integers never change their value. Scalar results fill arrays of arrays (mdarray<>) in row-major order and the rest is zero. array_cat<T>() follows the same rules, and array_fill() does for any element type.", "quantifier": "all functors, argument types, value categories, values, element types, class conversions, and numbers of elements and dimensions", "why_tests_cant": "The types are unbounded, and calls to be rejected cannot be part of a test program; the tests use a few arithmetic types.", "anchors": ["include/makeshift/array.hpp: array_transform, array_fill, array_cat, mdarray", "include/makeshift/detail/array.hpp: array_transform_impl, array_transform_to_impl, array_cat_impl, homogeneous_result_"]}
{"id": "C84", "title": "Metadata of any type can be extracted, in the right order and number", "statement": "metadata::extract<T, V>() and extract<T, PredT, ...>() return the requested occurrence among the metadata of type V or whose types satisfy the predicate (the metadata as a whole first), string literals as std::string_view. extract_for_values() and extract_for_exclusive_members() return, for all values or members in order, the requested entry of each one's record, converted to V; they are unavailable if and only if a record has no such entry, and rejected if one cannot be converted; extract_for_members() puts those of the direct bases first. It does not matter whether T is const-qualified.", "quantifier": "all metadata, types, predicates, occurrences, conversions and reflectors", "why_tests_cant": "Metadata are arbitrary trees of arbitrary types; the tests extract strings and one attribute from a few fixed types.", "anchors": ["include/makeshift/metadata.hpp: extract, extract_for_values, extract_for_exclusive_members, extract_for_members, name, description, value_descriptions, exclusive_member_descriptions, member_descriptions", "include/makeshift/detail/metadata.hpp: extract_metadata, extract_value_metadata, extract_member_metadata, extract_all_member_metadata, values_store"]}
{"id": "C85", "title": "A range has the interface its iterators allow, and is a tuple if its extent is static", "statement": "range<It, EndIt, Extent> has size() and [] exactly if It is a random-access iterator, whatever type the end has. A static extent is accepted exactly if it is not negative, It is a random-access iterator and EndIt is the same type; such a range is a tuple: std::tuple_size<> is the extent, get<I>() exists exactly for I less than the extent and gives what the iterator gives, const through a const range, and the elements can be bound to as many names. Ranges of dynamic extent are no tuples and have no get<I>().", "quantifier": "all iterator and sentinel types, iterator categories, element value categories, extents, indices and forms of binding", "why_tests_cant": "The types are unbounded, and what must be rejected cannot be part of a test program; the tests use two kinds of iterators.", "anchors": ["include/makeshift/ranges.hpp: range, std::tuple_size<range<>>, std::tuple_element<range<>>", "include/makeshift/detail/ranges.hpp: range_base, general_range_base, random_access_range_base, static_random_access_range_base, range_iterator_tag, get, as_const"]}
{"id": "C86", "title": "constval_range_to_array() returns all elements of the range", "statement": "constval_range_to_array(c, proj) returns an array of exactly the elements of the projected range, in order, converted to the value type; its size is the size of the range. The size is a constant; a range that is not constant or has no size, a functor that cannot be created anew, a projection with state and an element type without default constructor are rejected. Errors in the conversion are passed on, or rejected at compile time.", "quantifier": "all ranges of any length, element types, conversions, functors and projections, at compile time and at run time", "why_tests_cant": "The ranges are unbounded, and what must be rejected cannot be part of a test program; there is no test of this function.", "anchors": ["include/makeshift/constval.hpp: constval_range_to_array", "include/makeshift/detail/constval.hpp: constval_range_to_array_impl"]}
{"id": "C87", "title": "value_tuple<> stores the values of its arguments and gives access to them", "statement": "make_value_tuple(args...) stores the values of all arguments, in order; objects passed as lvalues or const rvalues are unchanged, others are moved from; no object is created that is not destroyed. get<I>() denotes the element, const exactly if the tuple or the element is; indices out of range are rejected; std::tuple_element<> is the element type, and structured bindings denote the elements. Rvalue tuples give up their elements in the tuple algorithms.", "quantifier": "any number of elements of any types, constness, value categories, and classes that can be copied, moved, both or neither", "why_tests_cant": "The types and value categories are unbounded, and what must be rejected cannot be part of a test program; the tests use value_tuple<> only for metadata.", "anchors": ["include/makeshift/tuple.hpp: value_tuple, make_value_tuple, get, std::tuple_size<value_tuple<>>, std::tuple_element<value_tuple<>>, tuple_cat", "include/makeshift/detail/tuple.hpp: value_tuple_leaf, value_tuple_base"]}
{"id": "C88", "title": "can_instantiate<> tells whether a template-id is valid", "statement": "can_instantiate<Z, Ts...> is true if and only if Z<Ts...> names a type, and false otherwise; it is never an error, and giving Z another name with an alias template does not change it. In particular, an alias template for a member type tells whether a class has that member. If it is true, Z<Ts...> can be used.", "quantifier": "all programs (class templates with any definitions, alias templates with any bodies), templates and types", "why_tests_cant": "There are infinitely many types and templates, and errors can hide in templates that are instantiated on the way.", "anchors": ["include/makeshift/type_traits.hpp: can_instantiate", "include/makeshift/detail/type_traits.hpp: can_instantiate_"]}
{"id": "C89", "title": "is_instantiation_of<> recognises exactly the specialisations of a class template", "statement": "For a class template U, is_instantiation_of<T, U> and the concept instantiation_of hold if and only if T is U<Ts...> for some types Ts, not for const-qualified types, references and pointers to it, and for at most one class template. For an alias template U that does not just rename a class template they never hold, although U<Ts...> names types.", "quantifier": "all programs, templates and types", "why_tests_cant": "There are infinitely many types and templates.", "anchors": ["include/makeshift/type_traits.hpp: is_instantiation_of", "include/makeshift/concepts.hpp: instantiation_of"]}
{"id": "C90", "title": "Functors are called in place by the algorithms over tuples, arrays and ranges", "statement": "template_for(), tuple_transform(), array_transform(), template_reduce(), template_transform_reduce(), template_all_of(), template_any_of(), template_none_of() and the range_...() algorithms call the functor object passed by the caller, as an lvalue of the constness of the argument, selecting its call operator by const and ref-qualifiers as the language does for such an lvalue; whether it is passed as lvalue or as rvalue, the functor is neither copied nor moved, its state carries over from one call to the next, and the caller finds the final state in its functor object; no other object is changed. A functor that cannot be called in this way is rejected at compile time.", "quantifier": "all functor classes (any set of call operators that differ in const and ref-qualifiers, with or without copy and move constructors, any behaviour), value categories and states of the functor argument, tuples, ranges and sizes; reducer and transformer may be the same object", "why_tests_cant": "tests use stateless lambdas passed as temporaries; the value category, constness, copies and the state of functors do not show up there, and cover a few of the combinations", "anchors": ["include/makeshift/tuple.hpp: template_for, tuple_transform, template_transform_reduce, template_reduce, template_all_of, template_any_of, template_none_of", "include/makeshift/detail/tuple.hpp: transform_reduce_fn, conjunction_fn", "include/makeshift/array.hpp: array_transform", "include/makeshift/detail/array.hpp: homogeneous_result_, array_transform_impl", "include/makeshift/algorithm.hpp: range_for, range_generate, range_transform_reduce, range_reduce, range_count_if, range_all_of, range_any_of, range_none_of"]}
{"id": "C91", "title": "tuple_cat() keeps references and element types, and moves exactly what may be moved", "statement": "tuple_cat(tuples...) returns a tuple whose element types are the declared element types of the arguments, in order, including references and const. Elements that are references refer to the same objects as before, which are not touched, also if the tuple is passed as an rvalue; all other elements have the values of the originals, which are moved from if the tuple is passed as a non-const rvalue, the element is not const and its type has a move constructor, and copied otherwise. A call is rejected at compile time if and only if some element cannot be passed on: objects that cannot be copied or moved as needed, and rvalue references in tuples passed as lvalues.", "quantifier": "any number of tuples of any sizes, element types (objects and references, const or not, of classes that can be copied, moved, both or neither), value categories and constness of the arguments, stores, aliasing of references, and orders of initialization", "why_tests_cant": "element types, value categories and aliasing are unbounded, and what must be rejected cannot be part of a test program; the tests concatenate tuples of numbers.", "anchors": ["include/makeshift/tuple.hpp: tuple_cat", "include/makeshift/detail/tuple.hpp: tuple_cat_impl, tuple_cat_impl_1"]}
{"id": "C92", "title": "template_for() does nothing to the results of the functor", "statement": "template_for(func, args...) has no effects other than those of the calls: whatever the functor returns, by value or by reference, is discarded without being copied or moved from. It compiles whenever the functor can be called with the elements.", "quantifier": "all functors (any return types depending on the arguments, any behaviour, including exceptions), object types, tuples, indices and stores", "why_tests_cant": "tests use functors that return nothing; the return types and copies of what is returned do not show up there.", "anchors": ["include/makeshift/tuple.hpp: template_for", "include/makeshift/detail/tuple-transform.hpp: transform_element, template_for_impl, get_element"]}
{"id": "C93", "title": "tuple_transform() returns a tuple of objects", "statement": "tuple_transform(func, args...) returns a tuple with one element per row, whose type is the return type of the functor without reference and const, so that it never dangles; the element has the value that was returned, or that the object referred to had when the call returned. Objects returned by lvalue reference or const reference are copied and unchanged, objects returned by rvalue reference are moved from; nothing else is touched. Functors that return nothing, or what cannot be made an object, are rejected at compile time. If a call throws, no further call is made.", "quantifier": "all functors (any return types depending on the arguments, any behaviour), object types, tuples of objects and references, indices, stores and orders of evaluation", "why_tests_cant": "return types, value categories and orders of evaluation are unbounded, and what must be rejected cannot be part of a test program.", "anchors": ["include/makeshift/tuple.hpp: tuple_transform", "include/makeshift/detail/tuple.hpp: tuple_transform_impl", "include/makeshift/detail/tuple-transform.hpp: transform_element, get_element"]}
{"id": "C94", "title": "Reductions of tuples pass the accumulator along and copy nothing needlessly", "statement": "template_reduce(init, reduce, t) and template_transform_reduce(init, reduce, transform, ts...) call the reducer with what its last call returned, a reference remaining a reference to the same object, and return the last accumulator to the caller by value. No object is copied or moved from other than the last accumulator, if it is a reference, so that accumulators and elements need not be copyable as long as they are passed by reference.", "quantifier": "all transformers and reducers (any return types depending on the types of accumulator and argument, any behaviour), initial values of any value category, object types, tuples of objects and references, and stores", "why_tests_cant": "the types of accumulators, value categories and copies are unbounded; the tests reduce numbers and strings by value.", "anchors": ["include/makeshift/tuple.hpp: template_reduce, template_transform_reduce", "include/makeshift/detail/tuple.hpp: transform_reduce_fn", "include/makeshift/detail/tuple-transform.hpp: transform_element"]}
{"id": "C95", "title": "Exceptions thrown by the caller's tuple-like types and iterators reach the caller", "statement": "If get<I>() of a tuple-like type passed to template_for(), tuple_transform(), array_transform(), template_transform_reduce(), template_all_of(), apply(), tuple_cat() or array_cat() throws an exception, or the function object does, no further element is read, no further call is made, and the exception reaches the caller. The same holds for the iterators of a range<> when its size is queried or its elements are accessed. If nothing throws, every element is read exactly once per call.", "quantifier": "all tuple-like types (any behaviour and exceptions of get<I>(), which may depend on and change the state of the program), functions, numbers and sizes of tuples, orders in which arguments are evaluated, iterators and ranges", "why_tests_cant": "which element throws, and when, is unbounded, as are the orders of evaluation; the tests use no tuple-like types or iterators that throw.", "anchors": ["include/makeshift/tuple.hpp: template_for, tuple_transform, template_transform_reduce, template_all_of, apply, tuple_cat", "include/makeshift/array.hpp: array_transform, array_cat", "include/makeshift/detail/tuple-transform.hpp: get_element, transform_element", "include/makeshift/detail/ranges.hpp: random_access_range_base, static_random_access_range_base, get"]}
{"id": "C96", "title": "Zip iterators move all their components together", "statement": "Every operation on an iterator of a zipped range performs exactly one such operation on each of the underlying iterators, so that after any sequence of operations all components have been moved by the same distance; comparisons and differences of zip iterators agree with those of every underlying iterator and perform no operations on them. If an operation of an underlying iterator throws, the exception reaches the caller and the zip iterator can still be used.", "quantifier": "all sequences of increments, decrements, additions, subtractions, postfix forms, dereferencing and subscripts; any number and kinds of ranges; underlying iterators with any behaviour, which may depend on everything that happened before", "why_tests_cant": "sequences of operations and the points at which an iterator throws are unbounded; the tests iterate over vectors and arrays, whose iterators do not throw.", "anchors": ["include/makeshift/detail/algorithm.hpp: zip_iterator", "include/makeshift/detail/zip.hpp: zip_iterator_leaf, range_zip_access"]}
{"id": "C97", "title": "Predicates may return any type that can be tested", "statement": "A predicate may return any type that can be used as a condition, by value or by reference; whether the elements are those of tuples or of ranges, all_of(), any_of(), none_of() and count_if() answer according to whether the conditions hold, in agreement with each other. Whether a predicate is accepted depends on its return types only, never on the number or values of elements of a range; for tuples all elements count, also those at which the predicate would not be called.", "quantifier": "all return types (conversions to bool, operators ! and constructors with any behaviour that may depend on value category and constness), predicates with state and exceptions, tuples, ranges, sizes", "why_tests_cant": "types and their conversions, the sizes of tuples and ranges, and the behaviour of predicates are unbounded; the tests use predicates that return bool.", "anchors": ["include/makeshift/tuple.hpp: template_all_of, template_any_of, template_none_of", "include/makeshift/detail/tuple.hpp: conjunction_fn", "include/makeshift/detail/zip.hpp: negation_fn", "include/makeshift/detail/tuple-transform.hpp: transform_element", "include/makeshift/algorithm.hpp: range_count_if, range_all_of, range_any_of, range_none_of"]}
{"id": "C98", "title": "Reductions over ranges and tuples hold the accumulator in the same way", "statement": "range_reduce(), range_transform_reduce() and template_reduce() call the reducer with the initial value and then with each result, and return the last result; for a range and a tuple with the same elements the results are the same value of the same type. The result of a reduction over a range always has the decayed type of the initial value.", "quantifier": "all types and assignment operators (including self-assignment), reducers with any return types, state, effects on the accumulator and exceptions, transformers, ranges and tuples of any size", "why_tests_cant": "the types, the conversions between them and the numbers of elements are unbounded; the tests reduce with reducers that return the type of the initial value.", "anchors": ["include/makeshift/algorithm.hpp: range_reduce, range_transform_reduce", "include/makeshift/tuple.hpp: template_reduce", "include/makeshift/detail/tuple.hpp: transform_reduce_fn"]}
{"id": "C99", "title": "overload selects the handler written for the argument's type, whatever its value category", "statement": "An object made with overload() calls the only handler that accepts the arguments, if there is one, and rejects the call if there is none. A handler whose parameters name the types of the arguments is preferred to generic handlers, one whose reference parameters preserve value category and constness to those that do not, and a handler that names the types of more parameters to one that names fewer; calls for which two handlers are equally good are rejected.", "quantifier": "all numbers of handlers, numbers of parameters, parameter types (values and references of all kinds, generic or not), const and mutable call operators, const and non-const objects, and arguments of all types and value categories", "why_tests_cant": "the handlers, their parameter types and the arguments are unbounded; overload() has no test.", "anchors": ["include/makeshift/functional.hpp: overload"]}
{"id": "C100", "title": "threads may rearrange disjoint parts of the same arrays and of the same soa_span at the same time", "statement": "Any number of threads call apply_permutation(), apply_reverse_permutation() or shuffle(), each on a part of its own: a range of elements of an array, or a range of tuples of a soa_span, where several threads may use iterators of one and the same span object. If no two parts have an element in common and every thread has its own index range, there is no data race in any execution; no thread meets undefined behaviour; when a thread has ended, its part and its index range are as they would be had it run alone, even if its index range is not a permutation and the call ends with a contract violation, and whatever the other threads are doing; nothing else changes; and all threads come to an end. If one thread assigns to the span object while another one calls one of these functions with its iterators, there are executions with a data race, unless that call leaves all tuples where they are.", "quantifier": "all numbers of threads, calls, arrays, spans, parts, index ranges, draws, and all interleavings of the threads' accesses to memory", "why_tests_cant": "the number of interleavings grows exponentially with the number of accesses and tests see a few of them only; the library's tests have one thread.", "anchors": ["include/makeshift/experimental/algorithm.hpp: apply_permutation", "include/makeshift/experimental/algorithm.hpp: apply_reverse_permutation", "include/makeshift/algorithm.hpp: shuffle", "include/makeshift/experimental/detail/span.hpp: soa_span_iterator"]}
{"id": "C101", "title": "apply_permutation() and apply_reverse_permutation() rearrange with as few swaps as possible", "statement": "If a call returns, the number of swaps it made is the smallest number of exchanges of two elements that turns distinguishable elements into the arrangement described by the indices, and hence at most one less than the number of elements; no element that is in its place is swapped. A call that ends with an exception has not made more swaps than elements minus one. apply_reverse_permutation() keeps this bound for indices that are no permutation, too, and apply_permutation() does not make more swaps than there are elements then. shuffle() draws exactly once for each element but one, and makes at most one swap for each draw.", "quantifier": "all iterators, elements, numbers of elements, index types and indices, swaps that may throw, generators and draws; minimality among all sequences of exchanges of any length", "why_tests_cant": "tests compare arrangements, not effort; minimality is a statement about all other sequences of exchanges.", "anchors": ["include/makeshift/experimental/algorithm.hpp: apply_permutation", "include/makeshift/experimental/algorithm.hpp: apply_reverse_permutation", "include/makeshift/algorithm.hpp: shuffle"]}
{"id": "C102", "title": "Lookups with the caller's own comparison operators ask as little as promised and believe the answers", "statement": "expand(), try_expand() and expand_failfast() make the same calls of the caller's comparison operators, whatever these do: compare listed constants with the value only, stop at the first exception and let it pass, and choose a constant only if the last answers support it. If the list is not sorted, == is called once for each constant in the order of the list up to the first that equals the value. If it is, < is called with at most 1 + ceil(log2(n-1)) constants and == at most once, even for operators that contradict each other. A program is accepted if the needed operators exist.  (Not true: the chosen constant equals the value, a value that equals a listed constant is found, acceptance depends on the types only; see the refuted theorems.)", "quantifier": "all types, lists of constants, values, and operators with any state that return or throw, consistent or not", "why_tests_cant": "operators are arbitrary programs with state; call sequences are not visible in results, and the faults need lists of certain lengths with equivalent but unequal constants.", "anchors": ["include/makeshift/variant.hpp: expand", "include/makeshift/variant.hpp: try_expand", "include/makeshift/variant.hpp: expand_failfast", "include/makeshift/detail/variant.hpp: search_value_index_2"]}
{"id": "C103", "title": "Constants have the same type exactly if they are equal, as far as their types can tell", "statement": "A constant made from a functor has the value that the functor returns. Constants made of integers, enumerators, member pointers and nullptr with std::array<> and std::tuple<> only have the same type iff they have the same value, whatever functors or objects they were made from; all other constants have the same type only if they were made from the same functor or refer to the same object. Hence expand(), try_expand() and expand_failfast() reject an array of constants iff such a value occurs in it more than once (or if it is empty), for every runtime value; otherwise the alternatives have the values of the elements, and the lookup behaves as promised for any consistent comparison. (Not true: equal constants have the same type; every non-empty array can be expanded.)", "quantifier": "all values of any nesting of arrays, tuples, tuple-like classes and other types; all functors, objects, runtime values and comparison operators", "why_tests_cant": "identity of types is a compile-time matter, and rejection by the compiler cannot be tested; nestings of types are unbounded.", "anchors": ["include/makeshift/detail/constval.hpp: make_constval_1_", "include/makeshift/detail/constval.hpp: constant_0_", "include/makeshift/detail/variant.hpp: constval_variant_map", "include/makeshift/variant.hpp: expand"]}
{"id": "C104", "title": "Array and tuple constants can be made of any constants of suitable types", "statement": "make_array_constant(cs...) is accepted iff there is at least one argument and all have the same value type, and returns the array of the values in order. array_constant{ cs... } and tuple_constant{ cs... } without template arguments give the same as make_array_constant(cs...) and make_tuple_constant(cs...). (Not true: a single argument that is itself an array or tuple constant is copied; and constants other than those whose type is determined by their value are rejected by array_constant{ cs... }.)", "quantifier": "all lists of constants of any nesting of types", "why_tests_cant": "acceptance and deduced types are compile-time matters; nestings of types are unbounded.", "anchors": ["include/makeshift/constval.hpp: array_constant", "include/makeshift/constval.hpp: make_array_constant", "include/makeshift/constval.hpp: tuple_constant", "include/makeshift/constval.hpp: make_tuple_constant"]}
{"id": "C105", "title": "Function objects for streaming do what the operators do", "statement": "to_stream<>{ }(stream, arg) calls what `stream << arg` calls, with the same object, and is a valid call iff that expression is valid; likewise from_stream<>{ }(stream, arg) and `stream >> arg`. to_stream<T> converts its argument to T and then calls the operator for const T; from_stream<T> takes lvalues of type T. Streams have to be lvalues that are not const. (Not true: operators for rvalues, non-const lvalues or derived stream classes are not called by to_stream<>; from_stream<> rejects rvalues such as manipulators; to_stream<T> and from_stream<T> cannot be used in constraints if T has no operator.)", "quantifier": "all sets of operators, implicit conversions, arguments of all value categories, template arguments and streams", "why_tests_cant": "which overload is called, and whether a call is rejected with or without an error, is decided at compile time for every set of overloads.", "anchors": ["include/makeshift/iostream.hpp: to_stream", "include/makeshift/iostream.hpp: from_stream"]}
{"id": "C106", "title": "Overloads for any_sink are fallbacks, and any_source stands for any value", "statement": "An overload that takes any_sink is called exactly if no other overload can be called; adding it does not change other calls. any_source can be converted to a value of any object type. (Not true: if another overload needs a user-defined conversion, the call becomes ambiguous, or, for a template, the overload for any_sink is called; any_source can be used in unevaluated operands only, everything else is undefined.)", "quantifier": "all sets of overloads of one argument, with all kinds of implicit conversions and templates; all types", "why_tests_cant": "overload resolution takes place at compile time for every set of overloads; ambiguous calls do not compile, and undefined behaviour may seem to work.", "anchors": ["include/makeshift/experimental/utility.hpp: any_sink", "include/makeshift/experimental/utility.hpp: any_source", "include/makeshift/detail/type_traits.hpp: any_sink"]}
{"id": "C107", "title": "Iterators of zips have the tags that all their ranges have, whatever classes the tags are", "statement": "The iterator category of a zip is derived from a tag of the standard library other than std::contiguous_iterator_tag exactly if the iterator categories of all ranges are; hence zips of zips have the same category as zips of all their ranges. This holds for all iterator categories whose strongest tag is not an ambiguous base class, and which have no conversion functions to tags they are not derived from, in particular the standard tags, classes derived from one of them, and the categories of zips; others are rejected.", "quantifier": "all hierarchies of tag classes with multiple inheritance and conversion functions; all lists of ranges", "why_tests_cant": "class hierarchies are unbounded, and rejection by the compiler cannot be tested.", "anchors": ["include/makeshift/detail/zip.hpp: input_iterator_tag_bit", "include/makeshift/detail/zip.hpp: output_iterator_tag_bit", "include/makeshift/detail/zip.hpp: common_iterator_tag"]}
{"id": "C108", "title": "Functions declared constexpr can be used in constant expressions, with the results they have at run time", "statement": "A call of a range algorithm, of expand(), try_expand(), expand_failfast(), parse_enum(), parse_flags(), apply_permutation(), apply_reverse_permutation() or shuffle() is a constant expression exactly if it returns normally at run time, and then has the same result; otherwise it is rejected by the compiler. (Not true: range algorithms are rejected in constant expressions if no range has a known size; expand() and its relatives are always rejected; parse_flags(), shuffle() and the permutations that exchange anything are rejected before C++20.)", "quantifier": "all lists of ranges, functors, values, index lists, draws and strings; C++17 and C++20", "why_tests_cant": "rejection by the compiler cannot be observed by tests that have to compile; whether a call is a constant expression depends on its arguments.", "anchors": ["include/makeshift/algorithm.hpp: range_for", "include/makeshift/detail/algorithm.hpp: _is_end", "include/makeshift/detail/variant.hpp: search_value_index", "include/makeshift/variant.hpp: expand", "include/makeshift/string.hpp: parse_flags", "include/makeshift/experimental/algorithm.hpp: apply_permutation"]}
{"id": "C109", "title": "References of soa_span perform each operation of the element types once, and let exceptions pass", "statement": "Assigning a reference or a tuple to a reference of a soa_span<> assigns each component once, in order; swapping two references swaps each component once, in order; converting a reference to a tuple copies each component once and moves each copy once. If one of these operations throws, no further component is touched and the exception reaches the caller. (The last part is not true: the program is terminated.)", "quantifier": "all numbers of components, indices and element types (any behaviour and exceptions of their assignments, constructors and swap(), which may depend on and change the state of the program), and orders of evaluation", "why_tests_cant": "which operation throws, and what it does before, is up to the caller's types; termination of the program cannot be observed by a unit test.", "anchors": ["include/makeshift/experimental/detail/span.hpp: soa_reference", "include/makeshift/experimental/detail/span.hpp: swap", "include/makeshift/detail/tuple-transform.hpp: template_for_impl", "include/makeshift/detail/tuple.hpp: tuple_transform_impl"]}
{"id": "C110", "title": "Structured bindings of the library's tuple-like types name the elements", "statement": "buffer<> and fixed_buffer<> of static extent, the references of soa_span<>, soa_span<> itself, type_sequence<>, and tuple and array constants can be used in structured bindings with as many names as they have elements; each name then denotes its element: in the object for a binding by reference, in a copy for a binding by value, in the caller's arrays for references of soa_span<>, with const added if the binding is const. tuple_elements_t<> lists the element types. Any other number of names, and buffers of dynamic extent, are rejected. (Bindings by value, or to an rvalue, do not compile for buffers of objects that are not const.)", "quantifier": "all tuple-like types, numbers of elements, element types (const or not), numbers of names and forms of structured bindings", "why_tests_cant": "the rejected programs do not compile, so no unit test contains them; the sizes and types are unbounded.", "anchors": ["include/makeshift/experimental/buffer.hpp: get, std::tuple_size, std::tuple_element", "include/makeshift/experimental/detail/span.hpp: soa_reference, std::tuple_size, std::tuple_element", "include/makeshift/experimental/span.hpp: get", "include/makeshift/utility.hpp: type_sequence", "include/makeshift/constval.hpp: array_constant, tuple_constant", "include/makeshift/tuple.hpp: tuple_elements"]}
{"id": "C111", "title": "Deduced class template arguments and make functions", "statement": "overload, composition, y_combinator, value_tuple, type_sequence and soa_span can be declared without template arguments: the object has the type of the class template with the types that the arguments stand for, and an argument of the class template itself is copied or moved. An lvalue argument is copied once, an rvalue is only moved. make_y_combinator(), make_value_tuple(), make_type_sequence() and make_soa_span() return objects of the types that would be deduced. overload(f, g) accepts all functors that can be base classes and are of different types. (Not true: overload(f, g) with parentheses in C++17; composition with any arguments; rvalues in value_tuple; make functions applied to an object of their own class template.)", "quantifier": "all class templates, numbers, types and value categories of arguments, language versions and forms of initialisation", "why_tests_cant": "declarations that do not compile cannot be part of a unit test; nesting and number of arguments are unbounded.", "anchors": ["include/makeshift/functional.hpp: overload, y_combinator, make_y_combinator", "include/makeshift/utility.hpp: type_sequence, make_type_sequence, composition", "include/makeshift/tuple.hpp: value_tuple, make_value_tuple", "include/makeshift/experimental/span.hpp: soa_span, make_soa_span"]}
{"id": "C112", "title": "value_tuple as the template of result tuples", "statement": "tuple_transform<TupleT>(), tuple_cat<TupleT>() and tie_members<TupleT>() accept the same arguments for TupleT = value_tuple as for std::tuple, give tuples with the same element types, and copy no object that need not be copied. (For tie_members() this is true. The others copy every element once more with value_tuple, and reject elements that can only be moved and rvalue references.)", "quantifier": "all numbers of elements, element types (objects that are or are not const, copyable, movable; references), value categories of results and arguments, and tuple templates of the arguments", "why_tests_cant": "the element types are the caller's, and rejected programs do not compile.", "anchors": ["include/makeshift/tuple.hpp: tuple_transform, tuple_cat, tie_members, value_tuple, get", "include/makeshift/detail/tuple.hpp: tuple_transform_impl, tuple_cat_impl_1, tie_members_functor, value_tuple_base"]}
