# Formal model of arg_router in Rocq: design

The subject is `cmannett85/arg_router` (headers under `/repo/include/arg_router`).
The code is a compile-time expression tree of C++ nodes; the *runtime* behaviour is a
two stage parser (pre-parse, then parse) plus a UTF-8 library, an error formatter and a
help generator.  All of the runtime behaviour is deterministic and single threaded, so it
is modelled by total computable Gallina functions; C++ undefined behaviour, foreign
standard-library exceptions (`std::length_error`, `std::out_of_range`), `std::exit` and
fuel exhaustion are *distinct outcomes* and never confused with a library error.

## 1. Layout

Model (rocq/theories; every definition cites the file and lines it models):

| file | models |
|---|---|
| `Bytes.v` | byte strings (`std::string_view`), search and prefix functions |
| `CodePoint.v` | `utility/utf8/code_point.hpp` |
| `Tab*.v` (generated) | the five Unicode tables, all rows |
| `Utf8.v` | `utility/utf8.hpp`, `grapheme_cluster_break.hpp`, `line_break.hpp` |
| `Token.v`, `Adapter.v` | `parsing/token_type.hpp`, `parsing/dynamic_token_adapter.hpp` |
| `Result.v` | outcomes of a C++ call: value, library error, other exception, UB, exit, out of fuel |
| `Tree.v` | nodes, policies, priorities (`tree_node.hpp`, `policy/*.hpp` data) |
| `Levenshtein.v` | `utility/utf8/levenshtein_distance.hpp`, `parsing/unknown_argument_handling.hpp` |
| `PreParse.v` | every `pre_parse_phase`, `tree_node.hpp` pre_parse, pre-parse of `mode.hpp`, `alias_group.hpp`, `one_of.hpp` |
| `Parse.v` | the parse stage of every node kind, `missing_phase`, `validation_phase`, `routing_phase` |
| `Root.v` | `root.hpp` |
| `Build.v` | the policies that the factories (`flag(...)`, `arg(...)`, ...) add |
| `Validator.v` | `policy/validator.hpp` with the default rules and the `static_assert`s, as boolean checks |
| `RuleList.v` | `policy/validator.hpp` as a list of rules, `policy/validator_rule_utilities.hpp` |
| `ParseTarget.v` | `parsing/parse_target.hpp` as objects with identity |
| `Digits.v` | `math.hpp`, `utility/compile_time_string.hpp` (integers as text) |
| `Message.v`, `Caller.v` | `utility/exception_formatter.hpp`, `policy/exception_translator.hpp`, `exception.hpp`, the try block of `root.hpp` |
| `GlobalParser.v` | `parsing/global_parser.hpp` |
| `MultiLang.v` | `multi_lang/iso_locale.hpp`, `multi_lang/root.hpp` |
| `Wrapper.v` | `multi_lang/root_wrapper.hpp`, `multi_lang/string_selector.hpp`, `tuple_type_iterator` of `utility/tuple_iterator.hpp` |
| `ResultClass.v` | `utility/result.hpp` |
| `Prefixes.v` | parsing with other prefixes (`config.hpp`): the functions of `Token.v`, `PreParse.v`, `Parse.v`, `Root.v`, `Validator.v` that use them |
| `PrefixCaller.v` | `root.hpp`'s parse() with other prefixes, with its messages |
| `StringPolicy.v` | `utility/string_to_policy.hpp` |
| `Help.v` | help data of all nodes, `policy/default_help_formatter.hpp`, `help.hpp`'s output |
| `HelpMore.v` | `policy/colour_help_formatter.hpp`, the `help` methods of `root.hpp` |
| `HelpCustom.v` | `policy/default_help_formatter.hpp` with other settings and without runtime help data; the latter of `policy/colour_help_formatter.hpp` |
| `Lists.v` | `list.hpp`, the constructor of `tree_node`, `dependency/detail.hpp` `generate_string_of_child_names` and `add_names` for lists |
| `CtString.v` | `utility/compile_time_string.hpp` for C++20 and C++17, `literals.hpp`, `generate_string_of_child_names` on such strings; the compile-time checks on trees whose names are such strings |
| `TransGen.v` | `cmake/translation_generator/translation_generator_script.cmake`: from translation files to headers |
| `TableGen.v` | `scripts/unicode_table_generators.py`: from data files to tables of code points |
| `StringView.v` | `utility/dynamic_string_view.hpp` (objects, their storage and the memory they use) |
| `UnsafeAny.v` | `utility/unsafe_any.hpp` (held objects, their construction and destruction) |
| `Examples.v` | the programs `simple`, `launcher`, `runtime_node_enable`, `just_cats` and `basic_cat` in `examples/` |
| `ExamplesMl.v` | the program `simple_ml` in `examples/`, with its three translations |
| `ExampleEven.v` | the program `custom_policy_and_node` in `examples/` |

`Spec*.v`: specifications used in theorem statements, written without the functions under test as far
as possible (relations on token lists, inductive readings, RFC 3629, edit scripts, numerals, ...).
`*Proofs.v`, `*Claims.v`: lemmas.  `Props*.v`: the property theorems, each closed with a short proof, with
`Print Assumptions` beneath and an `Example` that shows a case that meets the hypotheses.  `Demo.v` and
`Oddities.v`: the trees of the examples and of the counterexamples.

## 2. Method per property

For each property: **M** what is modelled, **P** how it is proved.

- **C01** M: `root_parse` with the mode loop on explicit fuel that returns a distinct
  `OutOfFuel`.  P: a token weight (max 1 (bytes of name)) strictly decreases with every
  accepted child; hence fuel `weight args + 1` is enough; theorem: never `OutOfFuel`.
- **C02** M: routers append to an event trace.  P: pre-parse never writes the trace; induction
  over the parse stage for accepted trees.
- **C03** M: pre-parse of every node.  P: a separate inductive relation `consumes` says what
  a node may take from the token list; each pre-parse success is an instance, chain by
  induction over the mode loop.
- **C04** M: `args` is state threaded through pre-parse (not just returned).  P: case analysis of
  the phases, induction on the tree.
- **C05** M: `verify_match`, `process_result`.  P: invariant on recorded matches / results.
- **C06**, **C07**, **C08**, **C48** M: mode parse stage.  P: the delivered value list is shown equal
  to an independent specification function of the recorded occurrences.
- **C09** M: counting flag merge with the integral width written explicitly.  P: induction over
  occurrences.
- **C10** M: expander with real grapheme clusters.  P: equality of pre-parse on both inputs.
- **C11** M: `min_max_count` with size_t wrap written out.  P: arithmetic; refuted part for the
  end-marker interaction.
- **C12** P: by cases on the comparator results; the specification is stated with `<=` on Z as
  well as for arbitrary comparators.
- **C13** P: list splitting at first occurrence.  **C14** expected false (find_first_of):
  `_refuted` with witness.
- **C15** P: as C11; the bounded-maximum, marker-first case is expected false: `_refuted`, with
  `c15_front_marker` saying what happens instead.  `counted` (SpecTake.v) has this case, so all theorems over
  `fresh` cover it.
- **C16** M: the mutable `last_typeid_` as explicit memory.  P: invariant.
- **C17** expected false with one_of: `_refuted`; `_partial` for trees without one_of.  The exact dependence on the
  state is proved too (SpecHistory.v, HistoryProofs.v, PropsHistory.v).  A simulation relates a parse from any state
  with one from a new object: for every tree they do the same, or the former throws
  `one_of_selected_type_mismatch`.  What a parse leaves in the objects is read off the typed items, which gives
  when a sequence of parses with one object makes all its calls.
- **C18** P: for every policy list; the value_separator interaction expected false.
- **C19** expected false: `_refuted` witnesses (length_error; UB on truncated UTF-8), plus
  `_partial` theorem for restricted alphabets.
- **C20** M: target with its armed flag.  P: induction over invocation lists.
- **C21** M: adapter over two lists.  P: equations on the concatenation.
- **C22** M: sort by priority.  P: permutation-invariance of sorting with distinct keys.
- **C23** M: the cost-row algorithm.  P: equal to the recursive edit distance, which is equal to the
  minimum over explicit edit scripts (inductive relation).
- **C24** P: fold invariant over the pre-order list of nodes.
- **C25** finite sweep over lead bytes lifted with bit lemmas; `_refuted` at the boundary lead bytes.
- **C26**, **C29**, **C30**, **C31** induction over the code point list; C31 `_refuted` for width 1.
- **C27** sortedness of tables by computation (finite data), search theorem for all code points.
- **C28** bit arithmetic.
- **C32**, **C33** independent template semantics; induction over placeholders.
- **C34** max over pre-order rows; **C35** independent inductive path relation.
- **C36**, **C37** list reasoning.
- **C38**, **C39**, **C40**, **C41** policy-level theorems over all trees; C41 expected `_refuted`.
- **C42** induction over positional list.  **C43** expected false: `_refuted` + exact
  characterisation (digits kept) / partial.  **C44** exact characterisation.
- **C45** from the boolean validator to at-most-one match.  **C46**, **C47** root level.
- **C49** list map.  **C50** prefix lemma.  **C51**, **C52** expected false: `_refuted`.
- **C53** list search characterisation.
- **C54** to **C58** expected false (`_refuted`): what the hypotheses `sane`, `tidy`, `distinct_types` and
  `clear_names` of the other theorems exclude.  What holds of C54 to C57 nevertheless is in `PropsPaths.v`, with
  `SpecPaths.v`: the rewriting of a group with a value behind a separator, and the first of several modes of a name.
- **C59**, **C60** the page as a list of rows, by induction over the tree and over the wrapped lines; **C61** by
  cases on the node kinds.
- **C62** M: all error paths of both stages.  P: `SpecFault.v` and `SpecOutcome.v` say, without the phases, what is
  wrong with a command line and how it is reported; each step of the parse is shown to end in exactly one of the
  specified cases, and the cases are shown to exclude each other.
- **C63** M: the cluster rules on a window of 16 classes.  P: `SpecBreaks.v` has the rules over all preceding
  classes, once as the annex has them and once as the library does; each rule of the code is shown equivalent.
- **C64** M: the line iterator.  P: an invariant of the scan (the window shows the classes read, the last break is
  the last allowed place), then induction over the lines; the specified layout is shown to be unique.
- **C65** P: composes C62 with C32/C33; the texts of the messages are in `SpecTold.v` a second time.
- **Compile-time rules** (C66): SpecRules.v states the rules as predicates on the policies a node has, the places where
  nodes are (`placed`, `reach`, `up_to_mode`), the nodes that references resolve to (`owners`) and the absence of
  cycles (`grounded`, a well-foundedness predicate; `leads`).  RulesProofs.v proves the equivalence with the computable
  checks; the depth to which the cycle check follows references is shown to be enough by counting the nodes of the
  mode.
- **Vocabulary** (C67): several specifications mention accessors of Tree.v (`long_name`, `count_bounds`, `node_token`,
  `match_node`, `preorder`).  SpecNode.v says what they mean as relations on the list of policies, and VocabProofs.v
  proves that the accessors agree with it on every accepted tree, so that an edit of an accessor breaks a theorem.
- **Factories** (C68): `adds ps n more` compares the policies of the node with the given ones as sets; the behavioural
  theorems instantiate the theorems on delivered values (C05-C09, C11) with the nodes that the factories make.  The
  same file says what surrounds the rows of a help page (`c34_frame`).
- **Coloured page** (C69): `screen` is a terminal that understands the three codes; each row's bytes are shown to be a row
  of the plain page (`row` of C34) with colours; the plain page's proof is followed entry by entry.
- **root.help()** (C70): both sides are reduced to `help_text` for the same help node and the root.
- **dynamic_string_view** (C71): the small string buffer lives inside the object, a longer text in a block; `related` is the
  invariant that ties the memory to the values and that every operation keeps.
- **unsafe_any** (C72): held objects have numbers, so that a destruction can be counted; `rep` ties the memory to a map from
  the variables (and the two temporaries of assignment and copy) to the objects they hold.
- **Texts** (C73): a logical relation.  `reworded` on trees is lifted to targets, tokens of errors, states and computations;
  each function of `PreParse.v`, `Parse.v` and `Root.v` has one lemma.
- **Formatter settings and static pages** (C74, C75): the help data of the types equals that of the instances of a tree in
  which nothing is switched off (structural induction); rows then agree because the column leaves room for each gap.
- **Lists** (C76): flattening is shown to be concatenation; the tree from the text with lists and the one from the text without
  differ in type hashes and made-up names only, to which C73 applies.
- **Compile-time strings** (C77): texts by induction on the storage; for whole trees, a function that is injective on the names
  of the tree is extended to one that is injective everywhere (by exchanging strings), with which all checks commute.
- **Translation generator** (C78): CMake's list of lines is taken apart again, by induction on the lines with the bracket
  nesting as the accumulator; the loop by induction on the entries; the header is injective, line by line.
- **Translations** (C79): a simulation between the readings of two command lines.  All relations are symmetric under swapping
  the languages, so that each lemma, also about what is *not* taken, is only proved in one direction.
- **Rule lists** (C80, C81): `met` says what each condition asks (`check_iff`); the first rule that applies, as an inductive relation; each edit splits the list at its index, and
  `governs_app`/`governs_cons` say what the parts do.  `policy_default` and `node_default` compute the rule of each class in the
  default list and compare its conditions with those of `Validator.v`.
- **Tables of code points** (C82): the data files are an inductive relation between lines and entries; `entry_line` says what the
  script sees of a line, `collect_rows` goes through the file, and for the printed rows `usable_sorted` gives the condition
  of `lookup_rows`, the search of the library (C27).
- **Languages by index** (C83): `used` says which column of the table of texts is meant; `wrap_used` goes through the indices.
- **The class result** (C84): `tells` is the list of all members' answers; induction over the operations since the last assignment.
- **Prefixes** (C85): `Prefixes.v` repeats the functions that use a prefix with the prefixes as parameters; that it is the model of the other files at the defaults holds by computation. `label_exact` follows the expander and count phases for any prefixes; `root_line` shows by induction over `line` that a run only depends on the arguments and values given, hence the comparison of two configurations. `choice` does so for named modes, by induction over `chosen`; `accepted_with_compiles` is C66's theorem with two rules changed.
- **Help pages and messages with any prefixes** (C86): the labels are a parameter of the page functions of `Help.v` and the text of a token one of those of `Message.v`; the lemmas about pages (`page_text_of`, `page_fits_of`) only ask that a label is not empty, and `label_ok` is for any prefixes. `run_help` and `run_unknown` follow a run with the lemmas of C85.
- **Example programs** (C87-C89): the trees of `examples/` are `well_formed` for any parsers (by computation on the booleans of the validator), so the theorems on command lines apply.  `ExampleProofs.v` reads the claims of C05 off for these trees: a relation between the words that are left and the values that are delivered, by induction on the words; `CatProofs.v` does it for every option of basic_cat, by induction on the options typed; `AdvancedProofs.v` and `RuntimeProofs.v` for the two modes of runtime_node_enable.  Files are a function from paths to contents.
- **The multilingual example** (C90): the proof for `simple` with the words as parameters, used for the three translations; the texts of the errors by computation on the two tables.
- **The example with a custom policy and node** (C91): the claims of C05 for a mode with one positional argument; the errors through C62 and C33.

## 3. Trusted base

- Coq 8.16.1's kernel, including its `vm_compute` conversion, which the examples, the counterexamples and
  the theorems about the Unicode tables use.
- `Print Assumptions` prints "Closed under the global context" for every property theorem: no axioms, neither
  of the standard library nor of our own.  (The `Coq.ssr.ssrunder` constants that a scan of the loaded
  libraries shows are parameters of a standard library module that `lia`/`zify` load; nothing uses them.)
- That the model is the code: it was written by reading the headers; nothing was compiled or run.  The
  texts that the repository's tests expect are `Example`s where they fit (for instance
  `repository_page` in PropsHelp.v).
- The definitions in the `Spec*.v` files say what the properties mean.

### What is modelled

The functions of the files in the table above, on every input.  Simplifications, each also stated at the
definition:

- The tree is a first-order value (`node`) in place of a C++ type.  A node's `type_hash` is its `n_id`; two
  nodes of the same C++ type have the same `n_id`.  The theorems on whole command lines assume
  `distinct_types` (C55, C57 show what happens without).
- Value types are records of functions (`vt_parse`, `vt_init`, ...): the theorems hold for any value type and
  any user parser.  Users' parsers, comparators, mergers and routers are assumed to return or to throw a
  library error, and to be deterministic; routers are events in a trace.
- `std::vector` and `std::string` are lists.  Where the code can ask for more than `max_size` (the short-form
  expander, `min_max_count`) the arithmetic is that of a 64-bit `size_t` and the exception is an outcome.
  Elsewhere memory is unbounded, and out of memory is not modelled.
- Loops on token lists carry explicit fuel; running out is an outcome (`OutOfFuel`) that C01 rules out.
- The command line is what `argv[1..]` contains; `argc = 0` is undefined behaviour (finding 28) and not
  modelled.

### What is not modelled

- Compile-time machinery as such (tuples, SFINAE, `std::integral_constant` arithmetic on indices), allocators,
  iostream state and formatting flags, `boost::lexical_cast` (it is part of a value type's `vt_parse`).
- CMake itself: `TransGen.v` has `file(STRINGS)`, `list(GET)`, `string(FIND)` and `get_filename_component(NAME_WLE)` as CMake
  documents them, for text without control characters.  Python itself: `TableGen.v` has the functions of `str` that the script uses for
  ASCII text, and `int(s, 16)` for digits without sign or prefix.
- `utility/terminal.hpp` (the terminal's width is a parameter), `utility/win_api.hpp`,
  `utility/type_hash.hpp`.
- `multi_lang/translation.hpp` (a declaration only): texts are plain strings in the model.
- Two `static_assert`s: that the members of an `alias_group` have one value type, and that the limits of `min_max_value_ct`
  are in order.  `accepted` holds of some trees that these reject; no theorem needs them.
- Conditions of custom validator rules that a user writes (those of `policy/validator.hpp` are in `RuleList.v`); `config.hpp` macros other than the defaults (trailing window 16,
  compile-time strings of at most 128 bytes), but for the prefixes: `Prefixes.v` is parsing with any prefixes, and `Help.v`, `Message.v` and
  `PrefixCaller.v` are help pages and messages with them.  Other formatter settings, colours and the generated names of groups are modelled with
  the default prefixes only.
- The example `simple_ml_gen` (`simple_ml` with translations from TOML files); the label of `custom_policy_and_node`'s argument on help pages; processes (`launcher`'s are their exit codes), directories and links.
- Threads, and parses started from within a router.

## 4. Findings

Behaviour of the code that contradicts a property, its own documentation, or what a user would expect.  Where a
theorem exists, it is named.

1. `one_of` keeps the chosen member in a member variable across parses of the same root: a later parse with
   another member is rejected (`c17_one_of_refuted`).
2. `min_max_count` with `token_end_marker` and a bounded maximum: `result.size() - ...` underflows if the
   marker comes first; the tokens after the marker go to the wrong argument (`c15_bounded_refuted`, exactly:
   `c15_front_marker`).
3. A lone `-` at the end reaches `reserve`/`insert` with a negative count: `std::length_error` escapes
   (`c19_dash_refuted`).
4. A value separator of several bytes is searched with `find_first_of`: any of its bytes splits
   (`c14_wrong_character_refuted`), or `std::out_of_range` escapes (`c14_foreign_exception_refuted`).
5. The range of an `alias_group` is not enforced unless it or a member accumulates (`c41_bounds_refuted`).
6. `runtime_enable` on an anonymous mode has no effect.
7. `dynamic_token_adapter::insert(end(), v)` returns an iterator with index 0.
8. A `counting_flag` of a narrow integer type wraps around (`c09_count` states it with the cast).
9. A first argument that is the empty string is reported as "no arguments passed"
   (`c47_empty_string_refuted`).
10. `-abc` with a letter that is no flag: the expanded tokens lose their `-` when they end up as positional
    values (`c58_other_letter_refuted`).
11. A disabled argument with a value separator still reports a missing separator (`c18_separator_refuted`); a
    disabled argument still gets its value through an alias (`c18_alias_refuted`).
12. `code_point::size` is one too large for the lead bytes 0xDF and 0xEF (C25), and a character cut off at the
    end of a string is undefined behaviour (`c19_bad_utf8_refuted`).
13. `--help run --disabled` dereferences an empty optional (`c35_disabled_refuted`, `c19_help_refuted`); with
    further names the next name is reported instead (`c35_disabled_partial`).
14. `line_iterator` does not advance if a code point is wider than the maximum (C31).
15. Aliases of aliases do not propagate; an argument that depends on an alias can never be used
    (`c52_never_satisfied`, `c52_dependency_refuted`).
16. `child_must_not_have_policy` only rejects if *all* children have the policy (`c51_some_refuted`).
17. `convert_integral_to_cts` drops zeros: 100 becomes "10" (C43), also on help labels
    (`c43_label_refuted`).
18. The rule GB12/GB13 for flags looks back at most 16 code points.
19. The lambda in `multi_lang::root::help()` does not return its value.
20. Two nodes of the same C++ type under one parent count as one: duplicate names are accepted and the second
    gets nothing (`c57_same_type_refuted`); an equal node in an earlier sub-mode takes the value
    (`c55_lost_refuted`).
21. `too_few_values_for_alias` cannot occur.
22. `help` cannot name arguments inside an anonymous mode, a `one_of` or an `alias_group`, as those have no
    name of their own (see the `path` relation).
23. Two sibling modes with one name are accepted (`c57_modes_refuted`), as is a forwarding argument named like
    a label (`c57_forwarding_refuted`).
24. The `parse(argc, argv)` overload with `argc = 0` is undefined behaviour.
25. `one_of`/`alias_group` of only flags is rejected at compile time, though a mixed one is accepted.
26. A positional argument with a fixed count of 1 and a value separator drops what follows the separator
    (`c54_lost_refuted`).
27. Expander and value separator on the same node: `-abc=5` is read as `-a 5 -b -c` (`c54_reordered_refuted`).
28. A named mode with a `min_max_count` drops tokens ([countless_modes] excludes it).
29. An alias of an argument that only a nested mode has is dropped silently (`c56_no_target_refuted`).
30. A node that is both an alias and dependent reports "no match" if its dependency is missing ([sane]
    excludes it).
31. `exception_formatter`: an unclosed `{` swallows the rest of the text (C32).
32. A `parse_target` can be copied; each copy runs its action once (C20 is about moves).
33. A short name that begins with `-` (a cluster such as `-` with an accent) cannot be typed ([plain_short]).
34. Grapheme clusters: a combining mark is joined to a control character before it, a joiner joins anything to a
    pictograph, and after 16 regional indicators flags are taken apart (`c63_*_refuted`).
35. Line breaking, rule LB9: the code forbids a break after a combining mark instead of before it, so a line can
    begin with the accent of the last letter of the line above (`c64_mark_refuted`).
36. Line breaking has no rule LB18 (break after spaces): before a word that begins with a hyphen or a quote there is
    no break, so `--name` in a help text is cut in two although it would fit in the next line (`c64_words_refuted`).
37. The window of classes is not cleared between lines and shows text beyond the end of the line, which is then read
    again; flags are split (`c64_flag_refuted`).
38. A line feed in a help text does not end a line as far as the line iterator is concerned (`c64_newline_refuted`).
39. A space that does not fit ends no line: in `ab cde f` at 6 columns the first line is `ab `, although `ab cde` fits.
40. `colour_help_formatter`: the row of the node itself, on a page for a single node, is moved one column to the right
    (`std::setw(0) << ' '` writes a space, `c69_same_refuted`).
41. (Read, not modelled.) `multi_lang::root_t::help()` and `root_wrapper_t::help()` that return a string use a lambda
    without `return`; calling them does not compile.  `policy::is_policy` is specialised for `default_help_formatter_t`
    with four parameters only, so a formatter with its own addendum formatter is not taken for a policy.
42. A translation with a closing bracket and no opening one (`"Unexpected } in"`) cuts two characters off the end of the
    last token: the appended `: {, }` is found twice (`c32_closing_refuted`).  No text that compiles makes the formatter
    throw (`c32_total`).
43. `unsafe_any_t`'s copy constructor calls `copier_` of an empty any, which throws `std::bad_function_call`
    (`c72_copy_refuted`); the library itself copies them only after `has_value()` (mode.hpp:355-370).
44. `unsafe_any_t`'s `swap` exchanges the buffers as bytes: an object of at most 16 bytes moves without its move
    constructor, even by the copy constructor (`c72_stays_refuted`).  Types that keep their own address break.
45. Descriptions are part of a node's C++ type and types identify nodes: adding a description to an argument of a sub-mode
    decides whether the mode's own argument of the same name gets its value (`c73_types_refuted`, cf. 20).
46. (Read, not modelled.) `root_variant_t{f(...)}` in `multi_lang::root_t` is ambiguous if the factory returns the same type
    for two languages, so such a program does not compile.
47. With `DescColumnOffset` 1, which `static_assert` allows, and exactly one column left for the descriptions, a description
    with a double-width character makes the help page loop for ever (`c75_page_refuted`, cf. C31).
48. `one_of` and `alias_group` generate their error name from the arguments as they are written, without expanding lists
    (`dependency/detail.hpp:49`): with the members in a `list` the message about a missing one reads `One of:`, without the
    alternatives, and with a display name of its own it lacks that name's last byte (`c76_names_refuted`).
49. (Read, modelled as a compile error.) An empty `list` does not compile: `list_expander_unpacker` calls an overload that is
    declared after it (`list.hpp:59-72`).
50. With C++20 strings, `short_name<'f'>` and `short_name_t{"f"_S}` - both documented - are different types: the storage of the
    second has a terminating null character (`compile_time_string.hpp:40,48`).  The rule that names are unique compares types
    (`validator.hpp:215`), so two flags `-f` are accepted in the same mode and the second can never be given
    (`c77_duplicate_refuted`); `alias` and `dependent` do not find a node whose name is written in the other way
    (`c77_reference_refuted`).  All other models take two names to be the same type iff their texts are equal, which is exact
    for C++17 strings and, by `c77_tree_partial`, for C++20 trees in which equal names are written alike.
51. `translation_generator_script.cmake:73` writes no comma behind the last line of the file, not behind the last entry: if a table of
    error codes is followed by a comment or a blank line, the header has a comma too many and does not compile
    (`c78_comment_refuted`).  The lines are kept in a CMake list, in which square brackets protect semicolons and a backslash
    escapes them: an unmatched bracket or a backslash at the end of a line, even in a comment, swallows the following
    entries without an error (`c78_bracket_refuted`, `c78_backslash_refuted`).
52. **Classes added to a rule are only known to that rule** (C81): `node_types_must_be_at_end<positional_arg_t>` in the rule of
    `mode_t` does not apply to a class that was added to the rule of `positional_arg_t` in the way of
    `examples/c++17/custom_policy_and_node`, so such a positional argument may be placed in front of a flag; it then takes
    `--loud` for its value (`c81_shadowed`).  `c81_position_refuted`.
53. **Wrong index in the documentation of `add_to_rule_types`** (C81): index 8 of the default rules is the rule of `flag_t`; that of
    `arg_t`, which the comment shows, is 9.  With 8, a required argument of the new class does not compile.
    `c81_documented_index_refuted`.  Besides, the second of the two rules for `one_of_t` is never used for it (`c80_second_rule`).
54. **The table script takes the newest data files, but not their classes** (C82): `LineBreak.txt` comes from `UCD/latest`, and any class
    that `line_break.hpp` does not have stops the script (`c82_stops`); Unicode 15.1 and 16 added AK, AP, AS, VF, VI and HH.
    The emoji file is pinned to 14.0.0, so pictographs and grapheme classes can be of different versions; nothing
    checks that the two files have no code point in common, and if they had, binary search would miss code points
    (`c82_overlap_example`).
55. **`utility::result`'s `!=` with a value** (C84) is documented as false if the result carries an exception; it is true
    (`c84_unequal_example`), as the opposite of `==`. After an assignment that throws the variant is valueless, and
    `has_error()` is true although `throw_exception()` throws `std::bad_variant_access` (`c84_error_refuted`); the exception class
    of the library moves without throwing, so this takes a user's value type that throws when moved.
56. **With equal prefixes short names cannot be typed** (C85).  `README.md:157` calls configuring the same long and short prefix common on
    Windows, and says that it disables short-form collapsing.  But `parsing/token_type.hpp:139-140` takes a word as short form only if it does
    not begin with the long prefix, and a long-form word is only compared with long names: `/f` is an unknown argument for a flag with the short
    name `f`, and an argument that only has a short name cannot be used.  Nothing refuses such a tree.  With the default prefixes the same
    happens to a short name that is a hyphen with a combining accent: one character, and not the long prefix, so `policy/short_name.hpp:49-51`
    lets it pass, but `-` in front of it makes a word that begins with `--`.
57. **The help page offers short names that cannot be typed** (C86).  With equal prefixes the page of a program shows `/f` for a flag whose
    short name is "f", and `/f` is an unknown argument (see 56).  `c86_typed_refuted`.
58. **`simple move --force` loses the file** (C88).  `examples/c++20/simple/main.cpp:31-33` (and the C++17 copy, and both multi-language
    ones) removes `src` if the destination exists, where `dest` was meant: the following `fs::rename` fails, and the contents of the source are
    gone.  `c88_force_refuted`.  Without the flag `fs::rename` replaces an existing destination silently (`c88_unforced_refuted`).
59. **The arguments behind `--` are not passed on as they are** (C87).  `README.md` has `launcher` as its example for the token end marker.
    The first argument behind the marker is still compared with the flags of the launcher: `launcher p -- -d` is a dry run of `p` without
    arguments (`c87_arguments_refuted`), and `launcher p -- -` does not survive (C19).
60. **Groups with unknown letters become file names** (C87).  `simple copy -fab src` copies "b" and "src" to "a": the short-form expander
    writes the group out, and the letters after the flag are taken as positional arguments (`c87_simple_example`; the general case is C19's).
61. **`basic_cat --show-nonprinting` writes unprintable bytes** (C89).  `examples/c++20/basic_cat/main.cpp:73-77` adds or subtracts 64: byte 127
    becomes a caret and byte 191, bytes from 191 a letter "M", a hyphen, a caret and a byte from 127.  `c89_shown_refuted`.
62. **The guide's sample message is not the program's** (C90).  `README.md:926-928` shows `AR_LOCALE_OVERRIDE=ja ./example_simple_ml_cpp20 -🐱`
    ending with `不明な引数: -🐱`; the program finds a suggestion and says `不明な引数 -🐱。 -h という意味でしたか？` (`c90_readme_refuted`).
63. **Names of real locales select English** (C90).  `simple_ml` lists the languages as `fr` and `ja`, and `iso_locale` keeps the country, so under
    `fr_FR.UTF-8` or `ja_JP.UTF-8` the program is English; only `AR_LOCALE_OVERRIDE=fr` and the like reach the translations (`c90_example`).
