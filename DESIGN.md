# Formal model of mbeutel/makeshift in Rocq (Coq 8.16.1)

All proofs live in `rocq/theories`, logical name `Verif`. Build:
`cd rocq && coq_makefile -f _CoqProject -o Makefile && make -j4`.

The subject is the header library in `/repo/include/makeshift`. It was read as text and never built or run.

## Conventions

* Every area has up to four kinds of files:
  `XModel.v` (the code, function by function, with `/repo` file and line citations, no proofs),
  `XSpec.v` (a small specification that does not use the model's helpers),
  `XProofs.v` (lemmas), and
  `XProps.v` (only property theorems `Cnn_...` closed by `exact lemma`, each with `Print Assumptions` and a
  concrete `Example` that meets its hypotheses).
* C++ outcomes are explicit (`Base.v`): a normal value, a contract violation (`gsl_Expects`, `gsl_Assert`,
  `gsl_FailFast`), a thrown exception with its message, undefined behaviour (`UB`), a compile-time rejection
  (`IllFormed`), and `OutOfFuel` for fuelled loops. Theorems always name the outcome, so UB, running out of fuel
  and compile-time rejection are never confused with success.
* A property that is false of the code is stated in full, refuted by a witness (`..._refuted`), and proved under
  the weakest side condition found (`..._partial`). The witness is listed under "Findings".
* User-supplied functors are modelled as state-passing functions (`S -> args -> S * result`), so order and
  multiplicity of calls are observable.

## Trusted base

* Coq's kernel (8.16.1) and the statements of the theorems in the `*Props.v` files.
* `Print Assumptions` output of every property theorem (expected: "Closed under the global context";
  exceptions are listed in the section "Assumptions" below).
* The reading of the C++ code: model definitions cite the lines they model. There is no mechanical link between
  the C++ text and the model.
* The standard-library and gsl-lite components used by the code are modelled by their documented behaviour:
  `std::string_view::find_*`, `std::variant`/`std::visit`, `std::array`/`std::tuple`, `std::swap`, `std::copy`,
  `std::istream` (`std::ws`, `peek`, `get`, state bits), bitmask operators from
  `gsl_DEFINE_ENUM_BITMASK_OPERATORS`, and contract macros in their checking configuration.
* Not modelled: compilation itself (template instantiation limits, SFINAE other than the conditions cited,
  compiler workarounds, `noexcept` except in `Throw` and `SoaCopy`), allocation failure, locales, performance.  The library has no shared mutable state of
  its own, so threads are modelled only where they work on the same arrays and span objects (`Conc`); executions are interleavings of
  accesses, which is what the language promises for programs without data races, and C100 proves that there are none. Value categories and moves are modelled where the table below says so, and so are exceptions
  thrown by user code in the middle of an operation.

## Plan per property

| id | what is modelled, how it is proved |
|----|-----------------------------------|
| C01 | `Serialize`: byte strings, `trim`, linear lookup. Padding with whitespace then lookup returns the value, by induction, from accepted and distinct names. |
| C02 | `Serialize`: iff against an independent relation "s is blank-padded w" and "first entry with this name"; error text against an independently written formatter. |
| C03 | `Serialize`: iff against a first-occurrence relation. |
| C04 | `Serialize`: `char_bitset` as four 64-bit words with shift/or/and; membership for all sets by induction and for all bytes; acceptance iff. |
| C05 | `Serialize`: full claim refuted (flag names may contain `+`, `\|` or outer blanks); partial for names without delimiters and outer blanks. |
| C06 | `Serialize`: loop invariant over the individual-flag prefix; bits via `N.testbit`. |
| C07 | `Serialize`: declarative splitting grammar versus the `find_first_of`/`remove_prefix` loop; fuel excluded. |
| C08 | `Serialize`: two-pass array filling versus stable partition. |
| C09 | `Stream`: stream as unread bytes + eofbit/failbit; maximal munch by induction. |
| C10 | `Stream`: as C09; "a failed stream leaves v alone" is refuted (v becomes zero). |
| C11 | `Stream`: induction on the sequence of values. |
| C12 | `Expand`: three search strategies over an abstract comparison; soundness for each. |
| C13 | `Expand`: fixed-width integers with promotion, wrap and signed overflow as UB; refuted by wrapping and overflowing witnesses; partial without them. |
| C14 | `Expand`: comparison with an unordered element (NaN); refuted; partial for ordered inputs. |
| C15 | `Expand` composed with `Meta` and `Serialize`. |
| C16 | `Variant`: variants as (alternative, value), call trace recorded. |
| C17 | `Variant`: mixed-radix strides, bijection with combinations, set equality, no duplicates. |
| C18 | `Variant`: flattening. |
| C19 | `TypeSeq`: recursive metafunctions over lists with decidable type equality. |
| C20 | `TypeSeq`: overload-based lookup; `is_in_v` refuted. |
| C21 | `Zip`: `merge_sizes` with its argument rotation; characterised and shown permutation invariant. |
| C22 | `Zip`: leaf iterators of every mode; iteration loop equals the pointwise specification; out-of-bounds excluded. |
| C23 | `Zip`: laws for iterators reachable from `begin()`. |
| C24 | `Zip`: refuted for sized non-contiguous ranges; partial for the others. |
| C25 | `Zip`: `range_for` with sentinel; prefix trace plus contract violation. |
| C26 | `Zip`: bit masks in `N`; minimum of category ranks. |
| C27 | `Zip`: state-passing functors; equality with left folds. |
| C28 | `Zip`: call trace is the shortest deciding prefix. |
| C29 | `Zip`: writes to every element, in order. |
| C30 | `Perm`: Fisher-Yates with a draw sequence; permutation; bijection between draw sequences and permutations. |
| C31 | `Perm`: cycle-following loop with fuel; invariant on processed cycles. |
| C32 | `Perm`: swap loop with fuel; invariant; composition with C31. |
| C33 | `Perm`: success iff permutation; out-of-fuel and out-of-bounds excluded; elements always a permutation. |
| C34 | `Tuple`: ordered brace-list evaluation, trace. |
| C35 | `Tuple`: pointwise specification. |
| C36 | `Tuple`: left folds, call prefix. |
| C37 | `Tuple`: concatenation through the 2-d index decomposition. |
| C38 | `Tuple`: operators as coded; `!=` refuted; partial for the others. |
| C39 | `Meta`: metadata values as a tree datatype with the classification predicates of the code. |
| C40 | `Meta`: first-occurrence specification. |
| C41 | `Meta`: class hierarchy as a finite tree, equality with transitive flattening. |
| C42 | `Meta`: refuted for three-level hierarchies; partial when bases have no reflected bases. |
| C43 | `Meta`: objects as finite maps from members to values. |
| C44 | `Constval`: constant values and normal forms as datatypes; induction. Refuted for tuples of type sequences. |
| C45 | `Constval`: lifting over mixes; refuted for nullary functors that are not constvals. |
| C46 | `Constval`: sizes. |
| C47 | `Range`: index iterators over `ptrdiff_t`, overflow as UB. |
| C48 | `Range`: iterator pairs into a sequence. |
| C49 | `Buffer`: heap and live objects, transition system, invariant over histories. |
| C50 | `Buffer`: placement function versus documentation. |
| C51 | `Buffer`: refuted for small-buffer placement; partial for the others. |
| C52 | `Buffer`: refuted for array construction of a dynamic `fixed_buffer`; partial for the size constructor. |
| C53 | `Soa`: pointers into arrays, proxies. |
| C54 | `Soa`: refuted (`empty()` is inverted). |
| C55 | `Soa`: window equations with `size_t` arithmetic. |
| C56 | `Soa`: histories of swaps. |
| C57 | `With`: typed values with conversions; refuted; partial for homogeneous tuples. |
| C58 | `With`: refuted (always the default). |
| C59 | `TypeSeq`: refuted for three or more variants; partial for at most two. |
| C60 | `Variant`: alternatives by type. |
| C61 | `TypeEnum`: index in the type list. |
| C62 | `FlagQuery`: two's complement bits of all integral types; refuted for sign bits. |
| C63 | `Functional`: functor bodies as interaction programs, functor objects in a memory; fuel-indexed evaluation versus a big-step relation. |
| C64 | `Tuple`: `row`/`col` loops versus positions in a concatenation. |
| C65 | `Stream`: sequences of flag combinations through C05, C07 and C10. |
| C66 | `Manip`: manipulators, bound manipulators and the objects they refer to, with lifetimes; functors are arbitrary. |
| C67 | `Move`: the functions of `Tuple` instantiated with references to elements that can be moved from. |
| C68 | `Invoke`: INVOKE as a relation, `invoke()` and `apply()` as functions. |
| C69 | `Range`: viable overloads counted; refuted for pointers and extents. |
| C70 | `Traits`: types described by the types of the expressions formed with them; concepts refuted. |
| C71 | `Forward`: overload resolution by ref-qualifier; sequences of calls. |
| C72 | `Forward`: partial for functors without parameters; refuted for others. |
| C73 | `VCat`: variants as objects in a memory, arguments as references with value categories. |
| C74 | `ZipCat`: ranges as objects in a memory, views, arguments with value categories; loops from `Zip`. |
| C75 | `PermIt`: the algorithms over an abstract state with a swap that may throw; invariant at every point of failure, induction on the attempts. Resuming `apply_permutation()` is refuted; partial. |
| C76 | `PermIt`: the same model, for swaps that do not throw; `soa_span<>` iterators as an instance. |
| C77 | `StreamIo`: streams with state bits, exception mask and an arbitrary buffer that may throw at every character; agrees with `Stream` without them. Refuted for errors inside a token and for `eofbit` in the mask; partial. |
| C78 | `StreamIo`: output with width, fill and adjustment; induction on the sequence of values. |
| C79 | `Overload`: overload resolution over conversions ranked by a parameter; partial for mutable generic functors (refuted). |
| C80 | `Dispatch`: composition of `Expand` and `Variant` for any number of arguments and any evaluation order; partial because of C13. |
| C81 | `Proto`: the range algorithms as programs over unknown operations: an environment answers every `size()`, `begin()`, `end()`, comparison, dereferencing, increment and functor call with a value or a failure, depending on the whole history. The specification is an automaton for each range. `C81_sequences` shows that `Zip` (iterators as positions) is an abstraction of this model. |
| C82 | `Life`: the lifetimes of the elements of `buffer<>` and `fixed_buffer<>`. Elements have no values here (that is `Buffer`), but every cell of every heap block and array member is alive or not, and each constructor, assignment and allocation may throw. Unwinding follows the rules of the language: elements constructed so far, members, base classes and memory of `new`. |
| C83 | `Init`: types of the elements of arrays: deduction from the functor, which is an oracle that maps argument types (with value category and const) to a return type, and aggregate initialisation with the conversion, narrowing and brace elision rules of the language. Conversions of classes are an oracle as well. `std::array<>` is taken to be an aggregate of an array; other array templates are not modelled. |
| C84 | `Extract`: `Meta` with conversion of what is found to the type asked for (an oracle for implicit conversions) and reflectors that may treat const-qualified types differently. The occurrence of an entry is specified by counting. |
| C85 | `Class`: types as first-order terms, partial specialisations as patterns. Matching, ordering and choice of specialisations are computed, and proved to be what substitution says for any patterns; on top of that, the tables of `range<>` and of its tuple protocol. |
| C86 | `ToArray`: the range as an oracle that may give different answers at compile time and at run time; the copy loop writes into an array of the compile-time size. |
| C87 | `VTuple`: copy and move construction of parameters and elements as a sequence of events on a store; value categories of access by a table over element types; the algorithms by reduction to `Move`. |
| C88 | `Detect`: types, class and alias templates as first-order terms; substitution with failures in and outside of the immediate context, computed up to a depth; specified by inductive relations for well-formedness and for the place of the first error. |
| C89 | `Detect`: deduction of a template and its arguments from a type. |
| C90 | `Functor`: functor classes with qualified call operators, objects of the caller and members of function objects, on top of `Tuple` and `Zip`; partial for rvalues in predicates and reductions over tuples, `range_generate` and `array_transform` (refuted). |
| C91 | `RefTuple`: tuples of objects and references over a store, `get<>()`, initialisation of elements in any order. |
| C92 | `RefTuple`: functors with return types; partial because results returned by reference are copied, moved from or rejected (refuted). |
| C93 | `RefTuple`: result types and values of `tuple_transform`. |
| C94 | `RefTuple`: accumulators as expressions; partial because elements are copied and accumulators have to be copyable (refuted). |
| C95 | `Throw`: `get<I>()` and iterators as operations of the caller's program; partial because most are called in `noexcept` functions (refuted). |
| C96 | `Throw`: zip iterators over iterators with a history; partial because an exception leaves the components apart (refuted). |
| C97 | `Pred`: result types of predicates with conversions, `operator !` and constructors; partial because explicit conversions and references are treated differently (refuted). |
| C98 | `Accum`: accumulators of reductions as one object or as expressions of changing type; partial because ranges assign and tuples do not (refuted). |
| C99 | `OverRef`: overload resolution for reference parameters and value categories; partial because `auto&&` is preferred to `T const&` (refuted). |
| C100 | `Conc`: the calls as sequences of single accesses to memory, threads as interleavings of these. Footprints of each call by induction on its loops; a step of one thread commutes with what the others rely on; the result of one thread alone is that of `PermIt`, by simulation. |
| C101 | `Swap`: no new code; the model of `PermIt` with a swap that keeps a record. Each swap settles a position for good; positions connected by any other sequence of exchanges are given the same label, and each exchange removes at most one label, so no sequence can be shorter. |
| C102 | `Search`: the lookups of `Expand` with operators that have effects. The operators are wrapped so that they keep a record of calls and answers; invariants of the record by induction on the two loops. The number of rounds follows from log2 of the halved interval, and is shown to be attained. |
| C103 | `Ctype`: names of constval types as terms of classes, functors and objects, with equality of types decided on these terms; nested induction on values. The type of a value that is not structural contains the functor, so different origins give different types. |
| C104 | `Ctype`: deduction compares the arguments with the parameters of the deduced type; a size argument shows that the constant of a reference to the value of `c` is never `c` itself unless the value is structural. |
| C105 | `Iostream`: overload resolution for a binary operator (on the reference bindings of `OverRef`), with implicit conversions and derived streams; the function objects bind the argument first and then resolve again. An expression is shown to call the one best operator. |
| C106 | `Sink`: overload resolution in terms of conversion sequences; what is called is the one best overload, and a case distinction on the best conversion among the other overloads decides what any_sink changes. |
| C107 | `Sink`: tag classes as trees of base classes with the number of subobjects; the overload called is that of the strongest tag; masks of bits reduce to minima. |
| C108 | `Constexpr`: the loops of the algorithms with a table of the called functions that are constexpr; equal to the loops at run time if everything evaluated is constexpr, so that the results of C02, C07, C25, C30-C33 carry over; otherwise the first call of a function that is not constexpr decides. |
| C109 | `SoaCopy`: the four functions with the operations of the element types as operations of the caller's program; complements `Soa`, where elements are plain values. |
| C110 | `Bind`: std::tuple_size<>, std::tuple_element<> and get<I>() as functions of the type; the language's rules for structured bindings on top of them. |
| C111 | `Guide`: types as terms, deduction guides and the copy deduction candidate as functions on them; initialisation lists the copies and moves of each argument. |
| C112 | `RTup`: the initialisers of the result as expressions with a value category; construction of elements of both templates as lists of copies and moves. |

## What is modelled and what is not

| file (under `include/makeshift`) | modelled | not modelled |
|----|----|----|
| `string.hpp`, `detail/serialize.hpp` | all functions | `noexcept`, storage of the names (string views are byte strings) |
| `iomanip.hpp`, `detail/iomanip.hpp`, `iostream.hpp` | extraction and insertion of enums and flags; manipulators made from arbitrary functors and their lifetimes (`Manip`; streams with exception masks and failing buffers, padded output: `StreamIo`; the extraction theorems C09-C11 and C65 are about what the functors do when they are called) | locales, tied streams, errors of output buffers |
| `variant.hpp`, `detail/variant.hpp` | all; value categories (`VCat`) | exceptions thrown by copying functors or results; converting constructors of `std::variant` other than for the exact type |
| `type_traits.hpp`, `detail/type_traits.hpp`, `utility.hpp` | the metafunctions on type lists and indices; `can_instantiate`, `is_instantiation_of` (`Detect`); other traits (`Traits`) | default template arguments; expressions in detection idioms |
| `algorithm.hpp`, `detail/algorithm.hpp`, `detail/zip.hpp` | all, including the leaf iterators of every mode; value categories and lifetimes of arguments (`ZipCat`); result types of predicates (`Pred`) and reducers (`Accum`) | `range_foreach` parallel policies do not exist; debug iterator checks |
| `experimental/algorithm.hpp` | all, for arrays (`Perm`) and for any iterators with a swap that may throw (`PermIt`), and in several threads (`Conc`) | the quality of the random bit generator (draws are a parameter) |
| `tuple.hpp`, `detail/tuple.hpp`, `detail/tuple-transform.hpp`, `detail/indices-2d.hpp`, `array.hpp`, `detail/array.hpp` | all; value categories of tuples (`Move`, `VTuple`), callables of all kinds in `apply()` (`Invoke`); types and initialisation of array elements (`Init`); element types of result tuples, tuples of references, results returned by reference (`RefTuple`) | values of result tuples with `value_tuple<>` as the template (copies and moves: `RTup`); elements that are arrays or functions |
| `metadata.hpp`, `detail/metadata.hpp` | all; extraction into arbitrary types and const-qualified types (`Extract`) | raw metadata of type other than tuples, arrays, values, strings, members, bases |
| `constval.hpp`, `detail/constval.hpp` | all, with `type_sequence<>` as a constval; identity of types and deduction (`Ctype`); whether `std::tuple<>` of empty classes is an empty class is a parameter | the language variants for C++17 and C++20 are treated as one; `std::array<T, 0>` is taken for a class that is not empty |
| `ranges.hpp`, `detail/ranges.hpp`, `iterator.hpp` | all | |
| `experimental/buffer.hpp`, `experimental/detail/buffer.hpp` | all | alignment, `aligned` allocators |
| `experimental/span.hpp`, `experimental/detail/span.hpp` | all | |
| `experimental/tuple.hpp`, `experimental/detail/tuple.hpp` | all | elements of reference types |
| `experimental/variant.hpp`, `experimental/detail/variant.hpp` | all | |
| `experimental/enum.hpp`, `experimental/detail/enum.hpp`, `experimental/utility.hpp` | flag queries, type enumerations, type tags, `any_sink`, `any_source` (`Sink`) | |
| `functional.hpp`, `detail/functional.hpp` | `y_combinator`; `overload` with a model of overload resolution for parameters passed by value and conversions (`Overload`), and one for reference parameters without conversions (`OverRef`); deduction and construction (`Guide`) | conversions to reference parameters, packs, constraints |
| `experimental/functional.hpp`, `experimental/detail/functional.hpp` | all | which object the forwarding functions refer to (they cannot be reached) |
| `concepts.hpp` | all | |
| `detail/macros.hpp`, `experimental/type_traits.hpp` | nothing | macros for empty bases and forced inlining; `is_type_enum` |

Every definition in a `*Model.v` file says which lines it models and where it simplifies them.

## Conformance with the library's own tests

The files `Test*.v` replay the checks in `/repo/test` on the model: `TestSerialize.v`, `TestAlgorithm.v`, `TestTuple.v` (tuples and
arrays), `TestVariant.v`, `TestConstval.v`, `TestMeta.v` and `TestExperimental.v`.  They are examples that show the model agrees
with what the authors of the library expect; they are not counted as proofs and do not appear in the manifest.  Static
assertions about types that the model does not represent are left out.  The only disagreement found this way was that the
model of constvals had no type sequences; they have been added.

## Assumptions

`Print Assumptions` stands below every property theorem; all of them print "Closed under the global context".  No file
declares an axiom, parameter or section-less variable.  `vcheck` lists seven constants of `Coq.ssr.ssrunder` (module
type of Coq's own ssreflect plugin, loaded by library files that the proofs import); no theorem depends on them.

## Findings

Disagreements between the code and what it documents or what the properties claim.  Each is proved of the model where a
theorem is named.

1. `value_tuple` `!=` is a conjunction of element inequalities: `(1,2) != (1,3)` is false (`C38_not_equal_refuted`), and
   `!=` of two empty tuples is true (`C38_not_equal_empty_refuted`).
2. Member names and descriptions descend only one level into base classes while the list of members descends all of them;
   with a base of a base, names no longer belong to the members (`C42_deep_hierarchy_refuted`).  A class with bases but
   without members of its own gets no names at all (`C42_no_own_members_refuted`).
3. `expand()` takes an unsigned list that wraps around the largest value for contiguous, and then does not find the values
   after the wrap although they are listed (`C13_wraparound_refuted`, `C15_wraparound_refuted`); signed subtraction can overflow (`C13_overflow_refuted`);
   a list that contains the largest value not in last place does not compile (`C13_largest_inside_refuted`).
4. `expand()` of a value of a type wider than that of the list truncates before it compares (`C12_narrowing_refuted`).
5. `expand()` of or with NaN (`C14_nan_value_refuted`, `C14_nan_listed_refuted`).
6. Names of flags may contain `+` and `|`, or outer whitespace, all of which the parser splits at or removes: such flags
   do not survive a round trip (`C05_flags_round_trip_refuted`).  Of several entries with the same name, the first one wins,
   single-bit flags before composed ones.
7. Reading flags from a stream that has failed or ended sets the variable to 0 (`C10_extract_flags_failed_stream_refuted`).
   Errors show the token untrimmed for enums, trimmed for flags.  One overload of `enum_from_string_error` is unused.
8. Names that begin with a vertical tab or form feed are written but cannot be read back from a stream
   (`C11_leading_vertical_tab_refuted`).
9. `tuple_transform<N>()`: the static_assert on the size does not take effect, excess elements are dropped silently
   (`C35_given_size_refuted`).  The order of the calls of `tuple_transform()` is that of a brace-enclosed list.
10. `range_zip()` of a sized range without random access: its end iterator equals its begin iterator, so that walking back
    from the end reads the wrong elements (`C24_from_the_end_refuted`).
11. `range_zip()` never checks the ends of unsized ranges against each other and can run past the shorter one
    (`C25_range_zip_refuted`); `range_for()` detects a mismatch only after having processed the common prefix
    (`C25_lengths_differ`, which states exactly that).  Three or more `range_index`
    arguments at the end of the list, without a known size, do not compile (`C25_index_arguments_refuted`).
12. `range_iota()`/`array_iota()` increment once past the last value: undefined if that is the largest one
    (`C29_iota_last_value_refuted`).
13. `make_range(It, ExtentC)` has its `enable_if` inverted: there is no `make_range(start, n)`
    (`C69_make_range_extent_refuted`), and `make_range(first, last)` is ambiguous for pointers and all other iterators with
    constexpr default constructor (`C69_make_range_pair_refuted`).  `range<It, It, N>(first, last)` ignores `last`
    (`C48_iterator_pair_extent_refuted`).  Reversed iterator pairs and negative extents are accepted
    (`C48_reversed_refuted`).
14. `is_in_v<T, Ts...>` drops `Ts...` and is always false (`C20_is_in_v_refuted`).  The comment of
    `search_first_tuple_element_index` wrongly says that repeated types give a negative result.
15. `variant_cat<>` drops the third and all later variants (`C59_variant_cat_refuted`).
16. `apply_permutation()`/`apply_reverse_permutation()` cast indices to the difference type of the range, so that an index
    outside of it can wrap to a valid one (`C31_index_type_refuted`).
17. Explicitly empty tuple in the metadata hides lists that follow (`C39_empty_list_refuted`); a tuple of plain values is
    taken for one record with the first of them as value.
18. `constval_transform()` treats functors of empty class that are not constvals differently depending on the other
    arguments (`C45_transform_functors_refuted`); classes derived from `std::integral_constant<>` are not recognised as
    constvals (`C45_extract_derived_refuted`); `std::tuple<>` and, where the standard library makes them empty classes, tuples of
    constvals are taken for functors and called (`C45_empty_tuple_refuted`).
19. `buffer<T>(n)` leaves elements of trivial type uninitialised if they fit into the small buffer but not on the heap
    (`C51_small_buffer_refuted`); copying such a buffer reads them (`C51_copy_refuted`).
20. `fixed_buffer<>` with dynamic extent, constructed from an array longer than its capacity, writes out of bounds
    (`C52_array_ctor_refuted`).
21. The size constructor of `buffer<>` allocates before it checks, so that a negative size is reported as `std::bad_alloc`;
    `std::integral_constant<int, -1>` counts as dynamic extent; copy assignment between heap-capable classes does not
    compile; moving a dynamic buffer copies it.
22. `soa_span::empty()` is inverted (`C54_empty_refuted`), hence `front()` and `back()` fail exactly for non-empty spans
    (`C54_front_back_refuted`).
23. `soa_span::first(std::size_t(-1))` returns the whole span (`C55_first_marker_refuted`).
24. References and iterators of `soa_span` refer to the span object rather than to its elements: they dangle if it was a
    temporary (`C53_temporary_refuted`) and follow its reassignment (`C53_reassigned_refuted`); references to const
    elements can be assigned to (`C53_const_refuted`, `C53_const_objects_refuted`).
25. `with<I>()`: ambiguous call (`C57_ambiguous_refuted`) or, if a compiler accepts it, conversion of all other elements to
    the type of element I (`C57_types_refuted`); `with<0>()` of an empty tuple is accepted.  Tuples that are lvalues, as in
    the documentation, are rejected by the constraint `is_tuple_like_v<TupleT>` of `with()` and `single()`
    (`C57_lvalues_refuted`, `C58_lvalues_refuted`).
26. `single()` never compiles and `single_or_default()` always returns the default (`C58_single_refuted`,
    `C58_single_or_default_refuted`).
27. `has_flag()` rejects the flag in the sign bit of a signed underlying type, which is what an enum without explicit
    underlying type has (`C62_sign_bit_refuted`).
28. Type enumerations are limited to 23 types although the message says 24 (`C61_long`).
29. What `as_enum()` and `as_flags()` return holds a reference to a manipulator that was destroyed when they returned;
    using it is undefined (`C66_as_enum_refuted`).  The functors capture nothing, so this has no visible effect in
    practice.
30. Flag combinations separated by whitespace only cannot be read back, unlike enums (`C65_blank_separator_refuted`).
31. Iterators of a `soa_span<>` with some but not all element types const cannot be converted to const iterators
    (`C53_iterator_to_const`).
32. The concepts `tuple_like` and `constval` are satisfied by no type, not even by `std::array<>` and `std::integral_constant<>`:
    `{ C::value } -> std::same_as<T>` compares a reference type (`C70_tuple_like_never_partial`,
    `C70_constval_never_partial`); the concept `bitmask` examines non-const operands, the trait const ones
    (`C70_bitmask_refuted`).
33. `forward_to()` of a functor that expects the forwarding function does not compile (`C72_forwarder_refuted`).
34. `variant_transform()` and `variant_transform_many()` reject const rvalue variants: `nth_variant_type_` is specialised for
    `const&&`, which is never deduced, but not for `const` (`C73_const_rvalue_refuted`).
35. `variant_transform_many()` calls a const copy of the functor but computes the result type from the functor as it was
    passed; mutable functors do not compile (`C73_many_mutable_refuted`).
36. `range_zip()` of a non-const rvalue compiles, but `begin()`, `end()` and `operator []` of the result do not: they pass a
    const element of the tuple to a constructor that takes `R&` (`C74_rvalue_refuted`). The documented example is such a call.
37. Assigning a zipped range to another one assigns to the ranges the latter refers to, as `std::tuple<R&...>` does
    (`C74_assign_refuted`).
38. The range algorithms and `range_zip()` reject built-in arrays, since the iterator category is determined for the decayed
    type (`C74_array_refuted`).
39. `apply_permutation()` marks an element of a cycle as done as soon as it is in place, so that the indices are not a
    permutation in the middle of a cycle. If a swap throws there, the call cannot be resumed with the indices left behind:
    the next call reports a contract violation (`C75_apply_resumes_refuted`). `apply_reverse_permutation()` can be resumed
    (`C75_reverse_resumes`). In both cases no element is lost.
40. If the stream buffer throws in the middle of a token, extraction takes the characters read so far for the token, stores
    its value (or reports it as invalid) and swallows the exception unless `badbit` is in the exception mask
    (`C77_partial_token_refuted`).  For flags, the same holds after a delimiter.
41. With `eofbit` in the exception mask, a token at the end of the input is consumed, but the exception is thrown before its
    value is stored (`C77_eof_mask_refuted`).
42. A mutable generic functor in an `overload` is preferred to const functors that accept the arguments exactly, unless the
    `overload` object is const (`C79_mutable_generic_refuted`).  `overload` is an aggregate without constructor: the
    documented syntax `overload(f, g)` compiles only as C++20, where aggregates can be initialised with parentheses; the
    library is declared to support C++17.  (The latter is not part of the model.)
43. `composition` is documented to inherit from its arguments but has no base classes (see also `C111_composition_refuted`).
44. `is_constval` is false for const-qualified types `std::integral_constant<> const` (`C70_is_constval_const_refuted`), and
    `is_constval_of` is ill-formed, not false, for constvals of this library that have no `value_type`, such as
    `type_sequence<>` (`C70_is_constval_of_partial`).
45. `array_transform()` without element type rejects functors that return references for tuples but not for arrays
    (`C83_reference_results_refuted`), and yields an array of const elements for tuples if the functor returns a const class
    (`C83_const_results_refuted`).  With `range_index`, which is an lvalue, and with rvalue functors, the return type is determined
    for calls that are not the ones made (`C83_range_index_refuted`, `C83_rvalue_functor_refuted`).
46. `array_transform<std::array<int, 2>>()` with scalar results is accepted and fills the inner arrays one after another
    (`C83_braces_refuted`), since the results are not enclosed in braces of their own.
47. `metadata::extract<T, char const*>()` never compiles: a literal is found but returned as `std::string_view`
    (`C84_literal_rejected`); `extract<T, std::string_view>()` does not find literals (`C84_view_refuted`), although
    `name()` returns them as `std::string_view`.
48. The search in a record starts with the value or member pointer itself: `extract_for_values<E, int, std::is_convertible,
    int>()` of an unscoped enumeration returns the values instead of numbers in their records (`C84_value_first_refuted`).
49. For a const-qualified type, `values()`, `value_names()`, `members()` and so on work, but `name()`, `description()`,
    `bases()`, `value_descriptions()` and `exclusive_member_descriptions()` do not (`C84_const_refuted`).
50. `std::tuple_size<range<It, It>>` is ambiguous (`C85_dynamic_rejected`): the specialisation declared for dynamic extents
    (ranges.hpp:127) is not more specialised than the one for equal iterator types.
51. `auto [a, b] = r` does not compile for any `range<>` of static extent (`C85_bindings_by_value_rejected`): `get<I>()` of an
    rvalue returns a reference to const, but `std::tuple_element<>` has no const.  For the same reason `auto& [a, b] = r` does
    not compile for const elements (`C85_bindings_const_refuted`).
52. `get<I>()` of a const `range<>` needs iterators that return references (`C85_get_const_refuted`).
53. `constval_range_to_array()` calls its functor twice, once to find the size and once for the elements; with
    `std::is_constant_evaluated()` the second range can be longer (`C86_run_time_refuted`).
54. `value_tuple<>` copies its constructor parameters (detail/tuple.hpp:65), so it cannot hold move-only objects
    (`C87_move_only_refuted`), and `get<I>()` has no overload for rvalues, so `auto [a, b] = make_value_tuple(1, 2)` does not
    compile (`C87_bindings_by_value_refuted`), and `tuple_cat()` copies from rvalues (`C87_moved_refuted`).  Through a const
    `value_tuple<T&>`, elements are const (`C87_references_refuted`).
55. A `type_sequence<>` is a constval but cannot be an element of a tuple constant, because it has no `value_type`
    (`C44_tuple_of_type_sequences_refuted`): neither `make_constval()` nor `get_constval()` work for such tuples.
56. `can_instantiate<>` is a hard error if a class that has to be instantiated on the way contains an error
    (`C88_hard_error_refuted`), and true for any specialisation of a class template with the right number of arguments
    (`C88_class_template_refuted`).  This is how the language works, but the comment says "would be valid".
57. A functor passed as rvalue to `template_reduce`, `template_transform_reduce`, `template_all_of`, `template_any_of` or
    `template_none_of` is moved into a function object and called through its const `operator ()`: lambdas declared `mutable` do
    not compile there (`C90_mutable_rvalue_refuted`), the const overload is called if there are two
    (`C90_const_overload_refuted`), and functors that cannot be moved are rejected (`C90_not_movable_refuted`).  As lvalues, and
    with `template_for`, `tuple_transform` and the range algorithms, all of these work.
58. `range_generate` takes the generator by const reference, so the usual generators, e.g. `[i = 0]() mutable { return i++; }`, do
    not compile, not even as lvalues (`C90_generate_refuted`).
59. `array_transform` deduces the element type from a call of the functor as an rvalue but calls it as an lvalue: a functor passed
    as rvalue whose operator is qualified with `&` is rejected, although `array_transform<T>` accepts it
    (`C90_array_transform_refuted`).
60. `template_for` passes every call through `transform_element`, whose return type is `auto`: what the functor returns by reference
    is copied although it is discarded (`C92_copies_refuted`), what it returns by rvalue reference is moved from
    (`C92_moved_from_refuted`), and a functor that returns e.g. `std::ostream&` does not compile (`C92_not_copyable_refuted`).
    `range_for` has none of these effects.  `decltype(auto)` would do.
61. For the same reason, `template_reduce` copies every element of an lvalue tuple before it calls the reducer
    (`C94_copies_refuted`), and tuples with elements that cannot be copied can be reduced as rvalues only
    (`C94_elements_copied_rejected`).
62. `transform_reduce_fn` passes accumulators along by reference but returns `auto`: a reduction over `std::ostream&` does not compile
    (`C94_stream_refuted`).
63. `get_element` is declared `noexcept` unconditionally: if `get<I>()` of a tuple-like type throws, e.g. because it decodes its
    elements on access, the tuple algorithms terminate the program, although `apply`, `tuple_cat` and `array_cat` pass the exception
    on (`C95_get_propagates_refuted`).  The same holds for `range<>`, whose `size()`, `operator[]`, `end()` and `get<I>()` are
    `noexcept` (`C95_range_propagates_refuted`).
64. Zip iterators compare by their own counter, which is incremented last: if incrementing a component throws, the components before it
    have been moved but the iterator compares equal to its old value, and its components stay apart whatever is done later
    (`C96_usable_after_exception_refuted`).
65. `template_any_of` and `template_none_of` pass the result of the predicate to a function with a parameter of type `bool`: results with
    `explicit operator bool` only, e.g. `std::optional<>`, are rejected, although `template_all_of` and all range algorithms accept them
    (`C97_explicit_refuted`).  Results returned by reference are copied by the tuple algorithms (`C97_reference_refuted`).
66. `template_all_of` and `range_all_of` use `operator !` of the result if it has one, while `any_of` and `none_of` use its conversion to
    `bool`; for classes in which these are not opposites, a predicate can be satisfied for all and for none of the elements
    (`C97_negation_refuted`).
67. `range_reduce` and `range_transform_reduce` assign every result to a variable of the type of the initial value: e.g.
    `range_reduce(0, std::plus<>{ }, std::array{ 0.5, 1.5, 2.5 })` rounds every partial sum and returns 3, while `template_reduce` returns
    4.5 for the same elements (`C98_conversion_refuted`).  A reducer that returns its accumulator by rvalue reference causes a
    self-move-assignment over ranges only (`C98_self_move_refuted`).
68. With `overload([](T const&) { ... }, [](auto&&) { ... })`, the generic handler is called for arguments of type `T` that are not const,
    although the first handler names their type; the same goes for `auto&` and lvalues (`C99_const_ref_refuted`).  `auto const&` and `auto`
    are safe fallbacks (`C99_const_ref_partial`).
69. `expand()` and its siblings believe that constants equal the value if neither is less than the other, without asking `==`
    (`detail/variant.hpp:102`): for pairs ordered by their first component, `(2, 9)` selects the constant `(2, 1)` of
    `{ (1, 1), (2, 1), (2, 2) }` (`C102_unequal_refuted`), and `(2, 2)` is not found in `{ (0, 0), (1, 0), (2, 1), (2, 2) }`
    (`C102_listed_refuted`).  If constants can be ordered among each other but not with the value, a list is accepted only if it is
    not sorted (`C102_types_refuted`).
70. Constants of `std::array<>` and `std::tuple<>` types with integral elements are the same type if they are equal: `expand()`
    rejects an array of such arrays or tuples in which a value is repeated, although it accepts repeated floating-point numbers or
    structures (`C103_expand_refuted`, `C103_otherwise_expanded`).
71. `array_constant{ c1, c2 }` does not compile for constants of floating-point or class type, because the constructor expects
    constants that refer to `c1::value` and `c2::value`, which are different types (`C104_deduce_refuted`); `make_array_constant(c1,
    c2)` works. Given a single array constant, `array_constant{ c }` makes a copy rather than an array of arrays.
72. `to_stream<>` and `from_stream<>` are not equivalent to the operators: arguments become const lvalues, or must be lvalues, and
    streams become `std::ostream&` or `std::istream&`. `from_stream<>{ }(stream, as_enum(value))` does not compile although `stream
    >> as_enum(value)` does (`C105_from_stream_refuted`), and operators for derived stream classes are not called
    (`C105_to_stream_refuted`). `to_stream<T>` and `from_stream<T>` fail with an error rather than being not invocable if `T` has no
    operator (`C105_constraint_refuted`).
73. An overload for `any_sink` makes calls ambiguous that would otherwise call an overload by a user-defined conversion, e.g. one
    for `std::string` with a string literal (`C106_fallback_refuted`). For the same reason, iterator categories that are convertible
    to, but not derived from, a tag of the standard library do not compile in zips (`C107_accepted_refuted`).
74. The conversion function of `any_source` has an empty body: every evaluation is undefined behaviour (`C106_source_refuted`).
75. `zip_iterator_base<>::_is_end()` is not constexpr, so that no range algorithm can be evaluated in a constant expression unless
    some range has a size (`C108_algorithms_refuted`).
76. `expand()`, `try_expand()` and `expand_failfast()` are declared constexpr, but `search_value_index()` is not, so that they can
    never be evaluated in constant expressions (`C108_expand_refuted`); strictly, they are ill-formed, no diagnostic required.
77. `parse_flags()` leaves its variable uninitialized and uses nothing else that would keep it from being a constexpr function in
    C++17; `apply_permutation()`, `apply_reverse_permutation()` and `shuffle()` need std::swap(), which is constexpr only since
    C++20 (`C108_strings_refuted`, `C108_permutation_refuted`). `enum_to_string()` is not declared constexpr.
78. `soa_reference<>::operator =()`, its conversion to std::tuple<> and swap() of soa_references are declared `noexcept`
    unconditionally, although they copy or swap elements of the caller's types: e.g. assigning a row that has a std::string
    component terminates the program when memory runs out (`C109_exceptions_refuted`, `C109_never_throws`).
79. `auto [x, y] = buf;` and `auto&& [x, y] = make_buffer(...)` do not compile for buffer<> and fixed_buffer<> of non-const objects:
    get<I>() has overloads for `buffer&` and `buffer const&` only, and a structured binding calls it with an xvalue, so that a `T&&`
    would have to refer to a `T const` (`C110_bindings_by_value_refuted`). `auto& [x, y] = buf;` and `auto const [x, y] = buf;` do
    compile.
80. The documentation of `overload` (`functional.hpp:26`, `experimental/functional.hpp:46`) shows `overload(f, g)`. The class is an
    aggregate without constructors, so this does not compile in C++17, only `overload{ f, g }` does
    (`C111_overload_parentheses_refuted`).
81. `composition` has a deduction guide for any arguments, but no bases and no constructor: `composition{ a, b }` never compiles
    (`C111_composition_refuted`). The deduction guide of soa_span<> for pointers and a size leads to a private constructor
    (`C111_pointers`).
82. `y_combinator(y)` and `make_y_combinator(y)` are documented alike, but for a y_combinator `y` the former is a copy of `y`, and
    the latter calls `y` with an additional argument; likewise `value_tuple` and make_value_tuple() (`C111_make_refuted`,
    `C111_make_nested`).
83. tuple_transform<value_tuple>() and tuple_cat<value_tuple>() copy every element from the parameters of the constructor of
    value_tuple<>, also rvalues, and reject elements that can only be moved, such as std::unique_ptr<>, and rvalue references
    (`C112_copies`, `C112_move_only_refuted`, `C112_cat_refuted`). tuple_cat() rejects rvalue or const value_tuples of references
    (`C112_references_rejected`).
