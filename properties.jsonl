{"id": "C01", "title": "Every command line parse terminates", "statement": "root.parse(args) always returns or throws: the mode's token loop cannot spin forever, whatever the tokens, including short-form expansion which inserts new tokens while parsing.", "quantifier": "every well-formed tree, every argument vector, every one_of memory left by earlier parses", "why_tests_cant": "Tests only run finitely many command lines; a non-consuming match or an expansion cycle would need the one input that triggers it.", "anchors": ["include/arg_router/mode.hpp mode_t::pre_parse_impl", "include/arg_router/root.hpp root_t::parse", "include/arg_router/policy/short_form_expander.hpp"]}
{"id": "C02", "title": "At most one router is called, and only on success", "statement": "A single root.parse() calls at most one user router. If the parse fails with any library error, or leaves tokens unhandled, no mode router has been called. If it returns normally exactly one top-level router (or the help output) has fired.", "quantifier": "every well-formed tree, every argument vector", "why_tests_cant": "Absence of a stray router call must hold on every failing command line.", "anchors": ["include/arg_router/root.hpp root_t::parse", "include/arg_router/mode.hpp mode_t::parse_impl", "include/arg_router/policy/router.hpp"]}
{"id": "C03", "title": "No command line token is dropped, invented or reordered", "statement": "When a mode accepts a command line, the input tokens split, in order, into consecutive segments each consumed by one matched node: its label and its values. Every token is in exactly one segment; the only rewriting allowed is splitting '-abc', splitting 'label<sep>value' and removing one end marker. (Modes in which some argument combines a value separator with short-form expansion, or is positional with a value separator, are the subject of C54.)", "quantifier": "every mode without these two combinations, every argument vector that is accepted", "why_tests_cant": "Token loss is input dependent; tests check only listed inputs.", "anchors": ["include/arg_router/mode.hpp mode_t::pre_parse_impl", "include/arg_router/tree_node.hpp pre_parse_impl", "include/arg_router/parsing/dynamic_token_adapter.hpp"]}
{"id": "C04", "title": "A node that does not match leaves the command line untouched", "statement": "If a node's pre-parse reports 'no match' the caller's argument vector is exactly what it was, so later siblings see the original tokens.", "quantifier": "every node, every policy list, every argument vector", "why_tests_cant": "Policies mutate working copies in the middle of the phase; a leak would show only for particular mixtures of policies and tokens.", "anchors": ["include/arg_router/tree_node.hpp pre_parse_impl", "include/arg_router/dependency/alias_group.hpp", "include/arg_router/dependency/one_of.hpp"]}
{"id": "C05", "title": "Duplicate single-use arguments are rejected", "statement": "An argument node that does not accumulate values (not a counting flag or other multi-stage node) contributes at most one value to a successful parse; giving it twice is an error and the router is not called.", "quantifier": "every mode, every argument vector, every pair of occurrences at any distance", "why_tests_cant": "Duplicates may be any distance apart, via aliases, via dependency groups and via expanded short forms.", "anchors": ["include/arg_router/mode.hpp verify_match, process_result"]}
{"id": "C06", "title": "A missing required argument is always rejected", "statement": "If a child marked required received no value from the command line, the parse fails and no router is called.", "quantifier": "every mode with a required child and every set of recorded matches not containing it", "why_tests_cant": "Must hold for every other combination of arguments.", "anchors": ["include/arg_router/policy/required.hpp missing_phase", "include/arg_router/mode.hpp process_missing_token"]}
{"id": "C07", "title": "Absent optional arguments deliver exactly their default", "statement": "When parsing succeeds, a child that did not occur on the command line delivers exactly its configured default value (false for a flag, value-initialised if it has no missing-phase policy), in its own position.", "quantifier": "every mode, every successful parse, every absent child", "why_tests_cant": "Positions and absence combine freely.", "anchors": ["include/arg_router/policy/default_value.hpp", "include/arg_router/mode.hpp process_missing_token, parse_impl"]}
{"id": "C08", "title": "Router arguments arrive one per value-producing child in declaration order", "statement": "On success the router receives exactly one value per child that produces a value, in the order the children were declared, independent of the order the arguments were typed.", "quantifier": "every mode, every successful parse", "why_tests_cant": "Order independence is a statement over all permutations of the command line.", "anchors": ["include/arg_router/mode.hpp parse_impl, strip_skipped"]}
{"id": "C09", "title": "A counting flag counts its occurrences", "statement": "A counting flag delivers the number of times it was given (through any of its names or aliases), converted to its value type.", "quantifier": "every number of occurrences, every interleaving with other arguments, every integral value width", "why_tests_cant": "Unbounded counts and wrap-around are beyond examples.", "anchors": ["include/arg_router/counting_flag.hpp merge", "include/arg_router/policy/multi_stage_value.hpp"]}
{"id": "C10", "title": "Short-form grouping is equivalent to writing the flags separately", "statement": "Replacing '-abc' by '-a' '-b' '-c' in front of any remaining tokens gives the same router call with the same arguments, when the letters are short names of flags of the mode (the last may take values).", "quantifier": "every group of one-character short names, every rest of the command line", "why_tests_cant": "Group contents and surrounding tokens are unbounded; graphemes may span several bytes.", "anchors": ["include/arg_router/policy/short_form_expander.hpp pre_parse_phase", "include/arg_router/utility/utf8.hpp iterator"]}
{"id": "C11", "title": "Minimum and maximum value counts are enforced", "statement": "A node is only ever given between its declared minimum and maximum number of value tokens; fewer gives minimum_count_not_reached; surplus tokens are left for the following nodes.", "quantifier": "every bounds pair (including an unbounded maximum), every number of available tokens", "why_tests_cant": "Boundary arithmetic on size_t can wrap for extreme bounds or empty selections.", "anchors": ["include/arg_router/policy/min_max_count.hpp pre_parse_phase"]}
{"id": "C12", "title": "Value range limits are enforced", "statement": "With min_max_value(lo,hi) a successful parse never delivers a parsed value below lo or above hi, and every value in range is accepted by the check.", "quantifier": "every pair of limits and every value, for every comparator", "why_tests_cant": "Ranges are infinite.", "anchors": ["include/arg_router/policy/min_max_value.hpp validation_phase"]}
{"id": "C13", "title": "Value separators split at the first separator only", "statement": "With a one-byte separator, 'label<sep>value' is treated as label and value where label is everything before the first separator and value is everything after it, even if value contains the separator again; an empty value or a missing separator is never accepted as a match.", "quantifier": "every token string", "why_tests_cant": "Strings are unbounded and may contain repeated separators.", "anchors": ["include/arg_router/policy/value_separator.hpp pre_parse_phase"]}
{"id": "C14", "title": "A multi-byte value separator works like a one-byte one", "statement": "With any separator that is a single grapheme, '--label<sep>value' is split into label and value, never terminating with a non-library exception.", "quantifier": "every separator grapheme and every token string", "why_tests_cant": "Only some byte values trigger the mis-split.", "anchors": ["include/arg_router/policy/value_separator.hpp pre_parse_phase find_first_of"]}
{"id": "C15", "title": "An end marker bounds a positional argument exactly", "statement": "With token_end_marker(m), a positional argument gets exactly the tokens before the first m; m itself is delivered to nobody; all tokens after m remain for the following nodes.", "quantifier": "every token vector, every count bound", "why_tests_cant": "Position of the marker (including first, last, absent) and bounds interact.", "anchors": ["include/arg_router/policy/token_end_marker.hpp", "include/arg_router/policy/min_max_count.hpp"]}
{"id": "C16", "title": "one_of accepts members of only one alternative in one parse", "statement": "In one parse, two different members of the same one_of cannot both be accepted: the second is an error.", "quantifier": "every one_of, every command line", "why_tests_cant": "Any distance and any interleaving.", "anchors": ["include/arg_router/dependency/one_of.hpp pre_parse"]}
{"id": "C17", "title": "Parsing is independent of earlier parses", "statement": "The result of root.parse(args) is determined by the tree and args only, and is unaffected by earlier parse calls on the same root object.", "quantifier": "every history of earlier parses", "why_tests_cant": "Histories are unbounded; tests build a fresh tree each time.", "anchors": ["include/arg_router/dependency/one_of.hpp last_typeid_", "include/arg_router/root.hpp parse"]}
{"id": "C18", "title": "A runtime-disabled argument behaves as if absent", "statement": "With runtime_enable(false) a node never consumes tokens, never delivers a value from the command line, and is never suggested in an error message.", "quantifier": "every node, every token vector", "why_tests_cant": "Interaction with every other policy on the same node.", "anchors": ["include/arg_router/policy/runtime_enable.hpp", "include/arg_router/parsing/parsing.hpp is_runtime_disabled"]}
{"id": "C19", "title": "Only parse_exception escapes from parse", "statement": "Every malformed command line ends in parse_exception; no other exception and no undefined behaviour, whatever bytes the user types.", "quantifier": "every argument vector over all byte strings", "why_tests_cant": "The space of byte strings is infinite and includes malformed UTF-8.", "anchors": ["include/arg_router/root.hpp parse", "include/arg_router/policy/short_form_expander.hpp", "include/arg_router/utility/utf8.hpp"]}
{"id": "C20", "title": "A parse target runs its action at most once", "statement": "However many times a pre-parsed target is invoked (also after being moved from), its parse action runs exactly once.", "quantifier": "every sequence of invocations", "why_tests_cant": "Sequences are unbounded.", "anchors": ["include/arg_router/parsing/parse_target.hpp operator()"]}
{"id": "C21", "title": "The token adapter behaves as one contiguous sequence", "statement": "Reading, erasing, inserting and setting through the adapter act on the concatenation of the processed and unprocessed tokens, and transferring never changes that concatenation.", "quantifier": "every pair of lists, every index, every sequence of operations", "why_tests_cant": "Every split point of the two lists and every index has to be right.", "anchors": ["include/arg_router/parsing/dynamic_token_adapter.hpp"]}
{"id": "C22", "title": "Policies run in descending priority order whatever their declaration order", "statement": "The pre-parse phases run in an order that depends only on policy priority, so declaring policies in a different order does not change the result (for distinct priorities).", "quantifier": "every permutation of the policy list", "why_tests_cant": "Factorially many declaration orders.", "anchors": ["include/arg_router/tree_node.hpp priority_order"]}
{"id": "C23", "title": "The suggestion distance is the true edit distance", "statement": "levenshtein_distance(a,b) is the minimum number of grapheme insertions, deletions and substitutions that turn a into b.", "quantifier": "every pair of strings", "why_tests_cant": "Optimality is a universal statement over all edit scripts.", "anchors": ["include/arg_router/utility/utf8/levenshtein_distance.hpp levenshtein_distance"]}
{"id": "C24", "title": "The suggested argument is the closest enabled one", "statement": "For an unknown argument the suggestion is a runtime-enabled named node with minimal edit distance, the first such in tree order; no suggestion only if there is no enabled named node.", "quantifier": "every tree, every unknown token", "why_tests_cant": "Tree shapes and strings are unbounded.", "anchors": ["include/arg_router/utility/utf8/levenshtein_distance.hpp closest_matching_child_node", "include/arg_router/parsing/unknown_argument_handling.hpp"]}
{"id": "C25", "title": "UTF-8 decoding is correct", "statement": "For each Unicode scalar value, decoding its UTF-8 encoding followed by any bytes gives back the scalar value and its encoded length.", "quantifier": "all 1,112,064 scalar values and every following byte string", "why_tests_cant": "Needs every lead byte, not a sample; boundary lead bytes are the interesting ones.", "anchors": ["include/arg_router/utility/utf8/code_point.hpp size, decode"]}
{"id": "C26", "title": "Grapheme iteration partitions the string", "statement": "Concatenating the grapheme clusters of a string gives back the string, every cluster is non-empty and consists of whole code points.", "quantifier": "every well-formed string", "why_tests_cant": "Unbounded strings.", "anchors": ["include/arg_router/utility/utf8.hpp iterator"]}
{"id": "C27", "title": "Unicode table lookup is exact", "statement": "The binary search returns the class of a code point exactly when some table entry contains it, for every shipped table (grapheme, line break, whitespace, zero width, double width).", "quantifier": "every code point, every entry of the five tables", "why_tests_cant": "Search correctness rests on sortedness and disjointness of thousands of rows.", "anchors": ["include/arg_router/utility/utf8.hpp find_range", "include/arg_router/utility/utf8/grapheme_cluster_break.hpp", "include/arg_router/utility/utf8/line_break.hpp", "include/arg_router/utility/utf8/double_width.hpp", "include/arg_router/utility/utf8/zero_width.hpp", "include/arg_router/utility/utf8/whitespace.hpp"]}
{"id": "C28", "title": "Packed code point ranges round-trip", "statement": "Packing (first,last,meta) into the six byte range record and reading the fields back gives the same numbers for every first,last < 2^21 and meta < 2^6.", "quantifier": "all triples of field values", "why_tests_cant": "2^48 combinations.", "anchors": ["include/arg_router/utility/utf8/code_point.hpp range"]}
{"id": "C29", "title": "Terminal width is additive", "statement": "The terminal width of a concatenation of well-formed strings is the sum of the widths.", "quantifier": "all pairs of strings", "why_tests_cant": "Unbounded strings.", "anchors": ["include/arg_router/utility/utf8.hpp terminal_width"]}
{"id": "C30", "title": "Line wrapping never exceeds the column limit and loses only whitespace", "statement": "Every line produced by the line iterator fits in the maximum column count; putting the lines back together gives the original text minus the whitespace skipped at the line starts.", "quantifier": "every text and every positive width", "why_tests_cant": "Unbounded texts and widths.", "anchors": ["include/arg_router/utility/utf8.hpp line_iterator"]}
{"id": "C31", "title": "Line wrapping always makes progress", "statement": "Iterating the lines of any text reaches the end after finitely many steps.", "quantifier": "every text and every positive width", "why_tests_cant": "Non-termination is input specific.", "anchors": ["include/arg_router/utility/utf8.hpp line_iterator consume_from_next"]}
{"id": "C32", "title": "Error message formatting substitutes the tokens in order", "statement": "The error message is the translation text with the n-th placeholder replaced by the n-th token, and a final joining placeholder replaced by all remaining tokens separated by the joining text; surrounding text is unchanged, also when a token itself contains braces.", "quantifier": "every format text and every token list", "why_tests_cant": "Token contents are user input.", "anchors": ["include/arg_router/utility/exception_formatter.hpp"]}
{"id": "C33", "title": "Every error code becomes exactly one parse_exception message", "statement": "The first translation entry for the error code is used, user translations before the fallback, and an unknown code is still reported.", "quantifier": "every translation table and every error code", "why_tests_cant": "Tables are user supplied.", "anchors": ["include/arg_router/policy/exception_translator.hpp"]}
{"id": "C34", "title": "Help descriptions are aligned and clear of the labels", "statement": "In the generated help all descriptions start in the same column, and every label ends at least one indent before this column, for every subset of runtime-enabled nodes.", "quantifier": "every tree, every enabled subset, every terminal width", "why_tests_cant": "Exponentially many enabled subsets.", "anchors": ["include/arg_router/policy/default_help_formatter.hpp description_column_start, line_formatter"]}
{"id": "C35", "title": "The help argument shows the node named by the following tokens", "statement": "'--help a b' shows the subtree reached by following a then b by name from the root; any name not found is an error; a disabled node is reported as unknown.", "quantifier": "every tree and every token list", "why_tests_cant": "Trees and paths are unbounded.", "anchors": ["include/arg_router/help.hpp find_help_target, parse"]}
{"id": "C36", "title": "Locale names are normalised", "statement": "iso_locale drops everything from the first '.', changes '-' to '_' and nothing else; the result has neither character and normalising twice changes nothing.", "quantifier": "every string", "why_tests_cant": "Universal over strings.", "anchors": ["include/arg_router/multi_lang/iso_locale.hpp"]}
{"id": "C37", "title": "Language selection picks the named language or else the default", "statement": "The tree built is the one for the supported language equal to the requested id, and the default language's tree when there is none; the factory is called exactly once.", "quantifier": "every language list and every request", "why_tests_cant": "Universal over ids.", "anchors": ["include/arg_router/multi_lang/root.hpp root_t"]}
{"id": "C38", "title": "An alias is equivalent to giving its targets", "statement": "'--alias v1..vn' records for each aliased node in the mode one occurrence with values v1..vn, consumes exactly those tokens, and nothing else.", "quantifier": "every mode, alias and values", "why_tests_cant": "Targets may be any nodes at any depth of the mode.", "anchors": ["include/arg_router/policy/alias.hpp pre_parse_phase"]}
{"id": "C39", "title": "A dependent argument is accepted only after all it depends on", "statement": "A node with dependent(...) is accepted only if every argument it names has already been matched in the same mode (directly or through an alias); otherwise the parse fails.", "quantifier": "every mode, every order of arguments", "why_tests_cant": "Every permutation of the arguments.", "anchors": ["include/arg_router/policy/dependent.hpp pre_parse_phase"]}
{"id": "C40", "title": "alias_group delivers the value of the member that was used", "statement": "An alias_group accepts exactly the tokens some member accepts, with the first matching member taking them, and its delivered value is computed from its members' occurrences only.", "quantifier": "every alias_group and command line", "why_tests_cant": "Any mixture of members.", "anchors": ["include/arg_router/dependency/alias_group.hpp", "include/arg_router/mode.hpp process_result"]}
{"id": "C41", "title": "alias_group value bounds are enforced", "statement": "A min_max_value policy on an alias_group bounds every delivered value, whichever member it came from.", "quantifier": "every bounds and every value", "why_tests_cant": "Depends on the kinds of the members.", "anchors": ["include/arg_router/dependency/alias_group.hpp", "include/arg_router/mode.hpp multi_stage_validation"]}
{"id": "C42", "title": "Positional arguments bind in declaration order", "statement": "Unlabelled tokens are bound to positional arguments in declaration order: with fixed counts each gets its count, and the last variable one gets the rest.", "quantifier": "every list of positional arguments and token list", "why_tests_cant": "Unbounded lists.", "anchors": ["include/arg_router/positional_arg.hpp", "include/arg_router/mode.hpp pre_parse_impl"]}
{"id": "C43", "title": "Help shows numeric limits in decimal", "statement": "The count and value limits shown in help text are the decimal numerals of the configured numbers.", "quantifier": "every integer limit", "why_tests_cant": "Numbers are unbounded; only some digit patterns are wrong.", "anchors": ["include/arg_router/utility/compile_time_string.hpp convert_integral_to_cts", "include/arg_router/tree_node.hpp count_suffix, value_suffix"]}
{"id": "C44", "title": "Boolean values accept exactly the documented words", "statement": "A bool argument is true for exactly true,yes,y,on,1,enable, false for exactly false,no,n,off,0,disable, and a failed_to_parse error for every other string.", "quantifier": "every string", "why_tests_cant": "Complement of a finite set of strings.", "anchors": ["include/arg_router/parsing/global_parser.hpp parser<bool>"]}
{"id": "C45", "title": "Unique names mean a label selects at most one sibling", "statement": "In a tree accepted by the default validator, a typed label (long or short) matches at most one of the arguments of a mode, when the arguments have different C++ types and no forwarding argument is named like a label (see C57 for the rest).", "quantifier": "every accepted tree, every token", "why_tests_cant": "Universal over trees and tokens.", "anchors": ["include/arg_router/policy/validator.hpp policy_unique_from_owner_parent_to_mode_or_root", "include/arg_router/parsing/parsing.hpp match"]}
{"id": "C46", "title": "Mode selection follows the typed path", "statement": "The deepest mode whose name path is a prefix of the command line is selected, and only its arguments are used for the rest.", "quantifier": "every nesting of modes and command line", "why_tests_cant": "Unbounded nesting.", "anchors": ["include/arg_router/mode.hpp pre_parse_impl", "include/arg_router/root.hpp parse"]}
{"id": "C47", "title": "An empty command line is reported as no_arguments_passed unless something accepts it", "statement": "root.parse({}) fails with no_arguments_passed, unless some top-level child accepts an empty command line; and a non-empty command line is never reported as empty.", "quantifier": "every tree", "why_tests_cant": "Universal over trees.", "anchors": ["include/arg_router/root.hpp parse"]}
{"id": "C48", "title": "Multi-stage values are the fold of their occurrences in command line order", "statement": "A multi-stage node's value is the left fold of its merge function over its parsed occurrences in the order typed; validation is applied to the merged value.", "quantifier": "every merge function and list of occurrences", "why_tests_cant": "Unbounded occurrence lists.", "anchors": ["include/arg_router/mode.hpp process_result, multi_stage_validation", "include/arg_router/policy/multi_stage_value.hpp"]}
{"id": "C49", "title": "Containers receive all values in order", "statement": "A multi_arg or positional container receives the parse of each of its value tokens, in command line order, and nothing else.", "quantifier": "every token list", "why_tests_cant": "Unbounded lists.", "anchors": ["include/arg_router/multi_arg_base.hpp parse"]}
{"id": "C50", "title": "Prefix classification of tokens is exact", "statement": "A raw token is a long-form one exactly when it starts with the long prefix, else short-form exactly when it starts with the short prefix; stripping and re-adding the prefix gives the token back.", "quantifier": "every string", "why_tests_cant": "Universal over strings.", "anchors": ["include/arg_router/parsing/token_type.hpp get_token_type, to_string"]}
{"id": "C51", "title": "Every element under a validator rule is checked", "statement": "child_must_not_have_policy<P> rejects a tree when any child of the node has policy P.", "quantifier": "every list of children", "why_tests_cant": "Lists of children are unbounded; mixed lists are the interesting ones.", "anchors": ["include/arg_router/policy/validator.hpp child_must_not_have_policy"]}
{"id": "C52", "title": "A dependency on an alias can be satisfied", "statement": "A node that depends on an argument which is itself an alias is accepted after that alias has been given.", "quantifier": "every mode with such a dependency", "why_tests_cant": "Depends on how aliases are recorded.", "anchors": ["include/arg_router/policy/dependent.hpp", "include/arg_router/policy/alias.hpp"]}
{"id": "C53", "title": "Bare strings given to a node become the right names", "statement": "Of the bare strings given to flag, arg, multi_arg, counting_flag and help, the first of more than one user-perceived character becomes the long name, the second the description, and one of a single character the short name; for positional_arg and mode the first becomes the display name or the mode's name and the second the description whatever their length; for forwarding_arg the first two longer ones become name and description. Any string left over is a compile error, and policies given explicitly are kept in order.", "quantifier": "every string", "why_tests_cant": "Universal over strings.", "anchors": ["include/arg_router/utility/string_to_policy.hpp"]}
{"id": "C54", "title": "Tokens are conserved for every combination of policies that compiles", "statement": "Also for arguments that combine a value separator with short-form expansion, and for positional arguments with a value separator, no typed text is dropped or given to another argument.", "quantifier": "every tree that compiles, every command line", "why_tests_cant": "Combinations of policies multiply; only some are tested.", "anchors": ["include/arg_router/policy/value_separator.hpp", "include/arg_router/policy/short_form_expander.hpp", "include/arg_router/tree_node.hpp pre_parse_impl"]}
{"id": "C55", "title": "A value reaches the router even if a nested mode declares the same argument", "statement": "A value typed for a mode's argument is delivered to that mode's router, also when an earlier nested mode has an argument of the same C++ type.", "quantifier": "every tree that compiles, every command line", "why_tests_cant": "Depends on type identity between different places in a tree.", "anchors": ["include/arg_router/mode.hpp find_matching_child_index"]}
{"id": "C56", "title": "An alias that compiles has an effect", "statement": "Giving an alias that the library accepts at compile time sets at least one argument of the selected mode.", "quantifier": "every tree that compiles", "why_tests_cant": "Depends on where in the tree the aliased argument is declared.", "anchors": ["include/arg_router/policy/alias.hpp pre_parse_phase", "include/arg_router/mode.hpp parse_impl"]}
{"id": "C57", "title": "Names accepted by the validator are unambiguous everywhere", "statement": "No two sibling modes have the same name, no two sibling arguments (even of one C++ type) have the same name, and no forwarding argument has the text of a label as its name.", "quantifier": "every tree accepted by the default validator", "why_tests_cant": "Universal over trees.", "anchors": ["include/arg_router/policy/validator.hpp policy_unique_from_owner_parent_to_mode_or_root"]}
{"id": "C58", "title": "A short group with an unknown letter means the same as its letters written out", "statement": "If '-abc' has letters that are not flags, the command line is treated as '-a' '-b' '-c'.", "quantifier": "every group of characters", "why_tests_cant": "Group contents are unbounded.", "anchors": ["include/arg_router/policy/short_form_expander.hpp pre_parse_phase"]}
{"id": "C59", "title": "The help page lists exactly the switched-on arguments, in tree order", "statement": "The page written by '--help names' has one row for each node at or below the named node that is switched on and has only switched-on nodes above it (and, unless flattened, no named mode above it below the shown node), in tree order, between the program's preamble and addendum; and nothing else.", "quantifier": "every accepted tree, every enabled subset, every command line that asks for help, every terminal width", "why_tests_cant": "Trees and enabled subsets are unbounded.", "anchors": ["include/arg_router/policy/default_help_formatter.hpp generate_help", "include/arg_router/tree_node.hpp help_data_type", "include/arg_router/utility/tree_recursor.hpp"]}
{"id": "C60", "title": "Lines of the help page do not pass the last terminal column", "statement": "If there are at least eight columns to the right of the description column, every line of the rows is at most as wide as the terminal.", "quantifier": "every accepted tree, every enabled subset, every terminal width", "why_tests_cant": "Descriptions, widths and labels are unbounded.", "anchors": ["include/arg_router/policy/default_help_formatter.hpp line_formatter", "include/arg_router/utility/utf8.hpp terminal_width line_iterator"]}
{"id": "C61", "title": "The label of an argument in the help text is what a user types", "statement": "The label is the names with their prefixes separated by commas, followed by the value separator or a space and the placeholder of the value (its range if limited) if it takes exactly one, followed by the count range for arguments that accumulate.", "quantifier": "every node of every accepted tree", "why_tests_cant": "Policy combinations are unbounded.", "anchors": ["include/arg_router/tree_node.hpp label_generator count_suffix value_suffix", "include/arg_router/positional_arg.hpp", "include/arg_router/dependency/detail.hpp"]}
{"id": "C62", "title": "Every rejected command line is reported with the error that says what is wrong", "statement": "Every command line is correct, asks for help, or is wrong in exactly one way. A wrong one is reported with the error code of its first mistake, naming the argument or the tokens at fault: an unknown argument (with the closest name), left-over tokens, an argument typed or set twice, a second alternative of a one_of, a missing separator, too few or too many values, a missing dependency, an unreadable or out-of-range value, a missing required argument, a mode without a router, an empty command line. Nothing is called.", "quantifier": "every well-formed tree, every command line", "why_tests_cant": "Trees and command lines are unbounded, and what is reported depends on the combination of mistakes.", "anchors": ["include/arg_router/exception.hpp error_code", "include/arg_router/tree_node.hpp pre_parse", "include/arg_router/mode.hpp pre_parse parse", "include/arg_router/root.hpp parse_impl", "include/arg_router/policy/min_max_value.hpp", "include/arg_router/policy/min_max_count.hpp", "include/arg_router/policy/value_separator.hpp", "include/arg_router/policy/dependent.hpp", "include/arg_router/policy/required.hpp", "include/arg_router/dependency/one_of.hpp"]}
{"id": "C63", "title": "Text is divided into user-perceived characters as Unicode says", "statement": "Between two code points there is a grapheme cluster boundary exactly if no rule of Unicode Standard Annex #29 joins them (clusters decide what a short name is, how suggestions are measured and how wide text is).", "quantifier": "every well-formed text, every position in it", "why_tests_cant": "The rules look at an unbounded stretch of text and at every code point.", "anchors": ["include/arg_router/utility/utf8/grapheme_cluster_break.hpp", "include/arg_router/utility/utf8.hpp iterator"]}
{"id": "C64", "title": "Help text is broken at the last allowed place that fits", "statement": "Each line is as much of the text as fits up to the last place where the line breaking rules allow a break, all that fits if there is none; the white space behind it is dropped. Words that fit stand whole in one line, and a line never ends within a character.", "quantifier": "every well-formed text, every number of columns for which the iteration ends", "why_tests_cant": "Where a line ends depends on all the text before it.", "anchors": ["include/arg_router/utility/utf8.hpp line_iterator", "include/arg_router/utility/utf8/line_break.hpp", "include/arg_router/policy/default_help_formatter.hpp"]}
{"id": "C65", "title": "The caller of parse() is told what happened, in the library's words", "statement": "parse() returns exactly if the command line is correct; otherwise the caller gets a parse_exception whose message is the text of the error that C62 specifies, a colon and the tokens it names, or the suggestion. Exceptions of the standard library pass through unchanged.", "quantifier": "every well-formed tree, every command line, the default translation", "why_tests_cant": "Trees and command lines are unbounded, and every combination of error and tokens is a different message.", "anchors": ["include/arg_router/root.hpp parse", "include/arg_router/exception.hpp default_error_code_translations", "include/arg_router/policy/exception_translator.hpp", "include/arg_router/utility/exception_formatter.hpp"]}
{"id": "C66", "title": "Exactly the trees that keep the rules compile", "statement": "A parse tree passes the compile-time checks if and only if it keeps every one of a list of rules: the policies each node class needs and excludes, the lengths and characters of names, names used only once in the scope of a mode, where routers, modes, groups and help may be, which children come last, how many values each class takes, and that aliases and dependencies name as many different existing arguments as they list and lead to no cycle. In particular no alias leads back to itself through other aliases, and no dependency through other dependencies, however long the chain.", "quantifier": "every tree of any shape and depth, with any policies", "why_tests_cant": "A test can show that one wrong tree is refused or one right tree compiles; that the checks are neither too weak nor too strong is a statement about all trees, and cycles may have any length.", "anchors": ["include/arg_router/policy/validator.hpp", "include/arg_router/policy/alias.hpp cyclic_dependency_checker", "include/arg_router/policy/dependent.hpp cyclic_dependency_checker", "include/arg_router/mode.hpp", "include/arg_router/root.hpp"]}
{"id": "C67", "title": "A node's names, limits and switches are what its policies say", "statement": "In a tree that compiles, every question the library asks of a node is answered by the policy of that kind, wherever it stands in the list of policies, and by nothing if there is none: names, description, value counts, separator, end marker, custom parser, repetition and runtime switch. A word on the command line is taken for a node's name exactly if it is the long name after two dashes, the short name after one dash, or the mode's name as it is; an error message names a node by the first of its error, display, long, short and none names; and a tree is visited each node before its children.", "quantifier": "every tree that compiles, every node at any place in it, every order of policies, every word", "why_tests_cant": "The lookups are template metaprograms over policy packs of any length and order; tests instantiate a few packs.", "anchors": ["include/arg_router/tree_node.hpp", "include/arg_router/parsing/parsing.hpp match, node_token_type", "include/arg_router/utility/tree_recursor.hpp"]}
{"id": "C68", "title": "Every kind of argument has the defaults it is documented to have", "statement": "A flag takes no value and is true exactly if it is on the command line, by itself, in a group of short flags or through an alias; a counting flag that is not there counts zero; an arg takes exactly one value and a multi_arg at least one unless told otherwise; a flag with a short name can be grouped and one without cannot; a group without a display name is called \"One of: \" or \"Alias Group: \" and error messages list its members, separated by commas; a mode without a name is called \"(Anon mode)\". The user's own policies are all kept and nothing else is added.", "quantifier": "every list of policies given to the functions that make nodes, every tree that compiles, every command line", "why_tests_cant": "The factories are templates over any policy pack, and the values that reach the router depend on the whole command line; a test fixes both.", "anchors": ["include/arg_router/flag.hpp", "include/arg_router/counting_flag.hpp", "include/arg_router/arg.hpp", "include/arg_router/multi_arg.hpp", "include/arg_router/positional_arg.hpp", "include/arg_router/forwarding_arg.hpp", "include/arg_router/policy/min_max_count.hpp add_missing_min_max_policy", "include/arg_router/dependency/detail.hpp add_names", "include/arg_router/mode.hpp", "include/arg_router/help.hpp"]}
{"id": "C69", "title": "The coloured help page is the plain page in colours", "statement": "With colour_help_formatter the labels are shown in red and the descriptions in green, everything else in the terminal's own colour, which is also what the terminal is left with; apart from the colours the page is the one of the default formatter.", "quantifier": "every tree that compiles, every node a page can be asked for, every set of switched off nodes, every terminal width", "why_tests_cant": "Tests compare whole pages of a few trees with expected strings; that no page leaves the terminal coloured or moves a column is about all pages.", "anchors": ["include/arg_router/policy/colour_help_formatter.hpp colour_line_formatter::format", "include/arg_router/policy/default_help_formatter.hpp"]}
{"id": "C70", "title": "root.help() writes the page that the help argument shows", "statement": "The help() methods of the root write exactly what the program writes when it is run with the help argument alone, and nothing if the tree has no help argument.", "quantifier": "every tree that compiles, every terminal width, every state of the switches", "why_tests_cant": "Two separate code paths (root.hpp and help.hpp) have to agree for every tree.", "anchors": ["include/arg_router/root.hpp help", "include/arg_router/help.hpp"]}
{"id": "C71", "title": "A dynamic_string_view always shows its text", "statement": "Whatever sequence of constructions, copies, moves, swaps, assignments (to itself too), conversions and appends is applied to dynamic_string_view objects, every object shows the text that these operations say; it refers to its own storage or to a text of somebody else, never to the storage of another object or to memory that is gone; a text it was not given to own is not copied; all memory is released with the objects.", "quantifier": "every sequence of operations that the language allows, any number of objects, every capacity of the small string buffer, every text", "why_tests_cant": "The object is a view into itself, so each operation has to renew it; a test sees the sequences it tries, and a dangling view often still shows the right text.", "anchors": ["include/arg_router/utility/dynamic_string_view.hpp", "include/arg_router/dependency/detail.hpp runtime_node_name"]}
{"id": "C72", "title": "unsafe_any keeps its value and destroys it once", "statement": "Whatever sequence of constructions, copies, moves, assignments (to itself too), exchanges and changes through get() is applied to unsafe_any objects: get() of the right type gives the value, copies are independent, a moved-from one is empty; each held object is destroyed exactly once, with the any that holds it at that time, and all memory is given back; moving constructs nothing. A copy of an any holds what the original holds; held objects stay where they were constructed.", "quantifier": "every program that uses each variable between its construction and destruction and get() with the right type; any division of types into those that fit into the buffer and others", "why_tests_cant": "Leaks and double destructions show up only under certain sequences of operations, which tests pick; the library passes every parse result through this type.", "anchors": ["include/arg_router/utility/unsafe_any.hpp", "include/arg_router/parsing/parse_target.hpp operator()", "include/arg_router/mode.hpp process_result"]}
{"id": "C73", "title": "Texts that are only shown do not influence what is parsed", "statement": "Two programs that differ only in descriptions, help page texts, display names and error names treat every command line alike: the same router is called with the same values, or the help page for the same node is shown, or the same error is reported of the same nodes; help pages have the same entries, labels and columns as long as the names are kept. A program in several languages whose languages keep the typed names therefore does the same whichever language is requested.", "quantifier": "every parse tree, every rewording of its texts, every command line, every remembered one_of state, every set of languages and requested language", "why_tests_cant": "Texts are template parameters and thus part of each node's type, on which the library compares nodes; a test fixes the texts together with the tree.", "anchors": ["include/arg_router/multi_lang/root.hpp parse/help", "include/arg_router/policy/description.hpp", "include/arg_router/parsing/parsing.hpp node_token_type", "include/arg_router/mode.hpp match_child"]}
{"id": "C74", "title": "A help page made at compile time is the page of the program with everything switched on", "statement": "generate_help called without runtime help data writes, for every node, terminal and setting of the formatter, exactly what the help argument writes if nothing is switched off; if something is switched off it writes the page there would be if it were on. Its coloured variant shows the same characters, the labels red and what follows them green.", "quantifier": "every accepted parse tree, every node of it, every terminal width, every Indent and DescColumnOffset, flattened or not", "why_tests_cant": "The two overloads are separate code: types visited at compile time against structs collected at run time. A test compares them for single trees.", "anchors": ["include/arg_router/policy/default_help_formatter.hpp default_line_formatter::format", "include/arg_router/policy/default_help_formatter.hpp line_formatter_dispatch", "include/arg_router/policy/colour_help_formatter.hpp", "include/arg_router/help.hpp generate_runtime_help_data", "include/arg_router/dependency/detail.hpp"]}
{"id": "C75", "title": "The formatter's settings only change indentation and wrapping", "statement": "With any Indent and any DescColumnOffset the help page is finished and consists of one row per listed node in tree order, indented by Indent per level, all descriptions in the same column and at least Indent columns behind the labels, wrapped to the terminal exactly if there are DescColumnOffset columns or more for them.", "quantifier": "every accepted parse tree, every node of it, every terminal width, every positive Indent and DescColumnOffset", "why_tests_cant": "The settings are template parameters, which tests only instantiate with a few values, and whether wrapping ends depends on settings, terminal width and text together.", "anchors": ["include/arg_router/policy/default_help_formatter.hpp default_help_formatter_t", "include/arg_router/utility/utf8.hpp line_iterator"]}
{"id": "C76", "title": "A list means the same as its members written in its place", "statement": "Wrapping nodes in arg_router::list and giving the list to a mode, root or group has the same effect as giving the nodes themselves: the parent has the same policies and the same children in the same order, and every command line has the same outcome, down to the error message. Lists that hold anything but nodes are refused at compile time.", "quantifier": "every source text of a parse tree, with any number of lists anywhere, every command line", "why_tests_cant": "Lists are flattened by template recursion and the order of policies and children afterwards depends on how they are mixed with lists; tests flatten single examples and do not compare whole parses.", "anchors": ["include/arg_router/list.hpp list_expander", "include/arg_router/tree_node.hpp tree_node::tree_node", "include/arg_router/dependency/detail.hpp generate_string_of_child_names"]}
{"id": "C77", "title": "Compile-time strings are their text", "statement": "A compile-time string has exactly the text it is made from (literal, character, array or span), and joining, cutting and repeating act on the texts. Names with the same text are the same name for the compile-time rules: duplicates are refused and aliases and dependents find the node, in whichever of the documented ways the names are written. The names that alias_group and one_of make up are the same with C++17 and C++20.", "quantifier": "all strings, all parse trees, all ways to write names, any AR_MAX_CTS_SIZE", "why_tests_cant": "The strings are template arguments; whether two are the same type depends on how they were built, and tests compare single strings that are written in the same way.", "anchors": ["include/arg_router/utility/compile_time_string.hpp", "include/arg_router/literals.hpp", "include/arg_router/policy/short_name.hpp", "include/arg_router/policy/validator.hpp policy_unique_from_owner_parent_to_mode_or_root", "include/arg_router/dependency/detail.hpp generate_string_of_child_names"]}
{"id": "C78", "title": "A generated translation header says what the translation file says", "statement": "For every language and every translation file, the header that arg_router_translation_generator makes contains, once for C++20 and once for C++17 strings, each text of the file under its name and each error code with its text, in the order of the file, and nothing else; comments and blank lines make no difference. A malformed line stops the generator and leaves the old header. A run for several languages makes all their headers, changes no other file and does not write headers that are up to date.", "quantifier": "all translation files (any number of entries, comments and blank lines, any texts), all languages, all sets of files", "why_tests_cant": "The test compares the headers of two files of the example; which lines are taken as one element of a CMake list, and where the commas go, depends on every character and line of the file.", "anchors": ["cmake/translation_generator/translation_generator_script.cmake", "README.md Translation Generation", "test/translation_generator_test.cpp"]}
{"id": "C79", "title": "A translated program understands the translated command line", "statement": "If a program is translated into another language, that is, long names and mode names are replaced one for one everywhere they occur (also in alias and dependent policies) and descriptions are replaced freely, then a command line whose names are replaced in the same way (also in front of a value separator) calls the same router with the same values, and the translated program accepts no other command lines, provided that no value looks like a name.", "quantifier": "all programs and dictionaries, all command lines with any mixture of names, groups of short flags, separators, end markers and values", "why_tests_cant": "The tests of multi_lang parse a handful of command lines of one example program; whether a name can also be taken as a value, a group, a separated word or another argument's name depends on all names of the program and all words of the command line.", "anchors": ["include/arg_router/multi_lang/root.hpp", "include/arg_router/parsing/parsing.hpp:36-57", "include/arg_router/policy/alias.hpp", "include/arg_router/policy/dependent.hpp", "README.md Runtime Language Selection"]}
{"id": "C80", "title": "Editing validation rules changes what it says and nothing else", "statement": "A tree is valid for a validator exactly if each node and each policy has a rule and meets the conditions of the first rule that applies to it; for the default validator this, with the assertions of the classes, is what lets a tree compile. insert_rule, remove_rule, update_rule and add_to_rule_types (by index or by rule type) change the conditions of exactly those types that the edited rule applies to and that no earlier rule governs; a node whose class has no rule makes the tree invalid; an index or type that does not exist is a compile error, except that removing a rule type that is not there does nothing.", "quantifier": "all trees, all classes of nodes and policies (also a user's own), all rule lists, all edits and indices", "why_tests_cant": "The tests compare edited rule lists as types for a few lists and check a few trees against single rules; that an edit leaves the validity of all other trees alone is a statement about all trees and lists.", "anchors": ["include/arg_router/policy/validator.hpp:60-160", "include/arg_router/policy/validator.hpp:610-740", "include/arg_router/policy/validator_rule_utilities.hpp"]}
{"id": "C81", "title": "A class added to a rule is validated like the classes already in it", "statement": "If a node class of one's own is added to the rule of a library class with add_to_rule_types, the validator treats nodes of that class as it does nodes of the library class.", "quantifier": "all rule lists, classes and trees", "why_tests_cant": "The example program has one tree, in which the custom positional argument is the only child of its mode; where the classes are told apart only shows in other trees.", "anchors": ["include/arg_router/policy/validator_rule_utilities.hpp:179-240", "include/arg_router/policy/validator.hpp:450-510", "examples/c++17/custom_policy_and_node/main.cpp:174-196"]}
{"id": "C82", "title": "The table script makes tables that mean what the data files say", "statement": "For data files of the Unicode character database in which no code point has two entries, unicode_table_generators.py prints a table (white space, double width, zero width, grapheme clusters, line breaks) in which the library finds exactly the code points that the files list for it, each with its class; line break classes are resolved as UAX #14 says. If a file has an entry of a class that the library does not have (grapheme clusters, line breaks), a line without a second field, or no version in the first line, the script stops without a table.", "quantifier": "all data files, all code points", "why_tests_cant": "The script has no tests, and its result is only compiled in; the unit tests of the tables look up a few code points in the tables of one Unicode version.", "anchors": ["scripts/unicode_table_generators.py:83-173", "scripts/unicode_table_generators.py:176-315", "include/arg_router/utility/utf8/code_point.hpp:18-100"]}
{"id": "C83", "title": "The older choice of languages by index selects one column of the texts", "statement": "multi_lang::root_wrapper builds the root exactly once, with the I-th variant of every SM_ text, where I is the index of the requested language code, or 0 if it is not supported. It compiles exactly if there are at least two languages, all different, and every SM_ has at least as many variants as there are languages. Its parse and help are those of multi_lang::root with translations that have the same texts.", "quantifier": "all language lists, tables of texts, requests and command lines", "why_tests_cant": "The tests have three languages and one or two texts; that the replacement in multi_lang::root does the same is a statement about two classes for all trees.", "anchors": ["include/arg_router/multi_lang/root_wrapper.hpp:66-139", "include/arg_router/multi_lang/string_selector.hpp:25-49", "include/arg_router/multi_lang/root.hpp:113-129"]}
{"id": "C84", "title": "A result object tells the same in all its members", "statement": "A utility::result always holds either the value or the exception that was last put in (or what is left of it after moves), and has_result, has_error, operator bool, operator!, get_if, get, extract and throw_exception all agree on it. Two results are equal exactly if both hold values and these are equal; != is the opposite of ==, and a comparison with a value behaves like one with a result of that value.", "quantifier": "all value and exception types, all sequences of assignments, extractions and moves", "why_tests_cant": "Tests look at an object after one or two operations with a few types; the claim is for every sequence of operations.", "anchors": ["include/arg_router/utility/result.hpp:17-207"]}
{"id": "C85", "title": "Names are recognised behind the configured prefixes", "statement": "Whatever long and short prefix the library is configured with (AR_LONG_PREFIX and AR_SHORT_PREFIX, within what config.hpp allows), an argument is selected by its long name behind the long prefix, by its short name behind the short prefix, by its none-name as it is, and, if it has the short-form expander, by a group of short names that begins with its own; by nothing else. It then takes between its minimum and maximum number of the following words, fewer than the maximum only at the end. Configuring both prefixes the same disables short-form groups only.", "quantifier": "all prefixes, all trees that compile with them, all words and following words", "why_tests_cant": "The prefixes are macros, so a test binary has one pair of them; the tests use the defaults.", "anchors": ["include/arg_router/config.hpp:47-63", "include/arg_router/parsing/token_type.hpp:25-32", "include/arg_router/parsing/token_type.hpp:103-146", "include/arg_router/policy/short_name.hpp:46-51", "include/arg_router/policy/short_form_expander.hpp:49-115", "include/arg_router/flag.hpp:140-150"]}
{"id": "C86", "title": "Help pages and messages show names behind the configured prefixes", "statement": "Whatever long and short prefix the library is configured with, the labels on the help page show the names of an argument behind these prefixes and everything else as with the default ones; the rows are aligned and fit into the terminal; asking for help writes the page of the node that the words lead to. Each name on the page can be typed as it is shown, and nothing else selects the argument by one name. Error messages show the tokens behind the configured prefixes, also in translations of the user's own, and for an unknown word the first of the closest names behind its prefix.", "quantifier": "all prefixes, all trees that compile with them, all nodes, terminals, words and translations", "why_tests_cant": "The prefixes are macros, so a test binary has one pair of them; the expected pages and messages in the tests have the default prefixes in them.", "anchors": ["include/arg_router/config.hpp:47-63", "include/arg_router/policy/default_help_formatter.hpp", "include/arg_router/parsing/token_type.hpp:25-32", "include/arg_router/parsing/token_type.hpp:74-78", "include/arg_router/help.hpp:179-275", "include/arg_router/root.hpp:147-180"]}
{"id": "C87", "title": "The example programs call their routers with the values their documentation promises", "statement": "The trees of the example programs satisfy the compile-time checks. simple calls copy or move exactly for the documented command lines, with the flag, the destination and the sources typed; launcher calls its router with the programs before \"--\" and the arguments behind it; just_cats calls the router of the flag typed; runtime_node_enable never runs a licensed mode without a licence, and requires the licensed argument with one; basic_cat fills what is not typed with the defaults.", "quantifier": "all command lines, all licences, all value types in the places of int and std::optional<std::size_t>", "why_tests_cant": "The examples have no tests; a test would run a few command lines of each, and which words a router receives depends on every word before them.", "anchors": ["examples/c++20/simple/main.cpp", "examples/c++20/launcher/main.cpp", "examples/c++20/runtime_node_enable/main.cpp", "examples/c++20/just_cats/main.cpp", "examples/c++20/basic_cat/main.cpp", "README.md"]}
{"id": "C88", "title": "The example file mover and copier lose no file", "statement": "simple move leaves the contents of the source at the destination, nothing at the source, and all other files alone; an existing destination is replaced only with --force. simple copy changes the destination only, and without --force does not overwrite.", "quantifier": "all file systems of regular files, all paths, with and without the flag", "why_tests_cant": "The examples have no tests; the loss needs a destination that already exists, and that no other file changes is a statement about all of them.", "anchors": ["examples/c++20/simple/main.cpp:20-36", "examples/c++17/simple/main.cpp"]}
{"id": "C89", "title": "The example programs write what their options say", "statement": "basic_cat writes the first --max-lines lines of a file, each cut to --max-line-length with the suffix or left out, with $ at its end if asked for; with --show-nonprinting everything written is a printable character, a tab or the end of a line. launcher --dry-run writes one line for each program; without it the exit code is the largest of the programs'.", "quantifier": "all files, options, programs, arguments and exit codes", "why_tests_cant": "The examples have no tests; the notation has to be right for all 256 bytes, the lengths for lines of any length.", "anchors": ["examples/c++20/basic_cat/main.cpp:62-128", "examples/c++20/launcher/main.cpp:27-62"]}
{"id": "C90", "title": "The multilingual example program speaks one language at a time, and completely", "statement": "simple_ml, run under a locale, understands exactly the words of the chosen language: it calls its copy or move code exactly for the command lines in that language's words, with the values typed. French is chosen for the name fr, Japanese for ja, English for every other name. In French and Japanese every error of the library is reported with a text in that language, as the guide shows.", "quantifier": "all locale names, values of AR_LOCALE_OVERRIDE, command lines, error codes and tokens", "why_tests_cant": "The examples have no tests; that no command line reaches a router with another language's words, and that no error code falls back to English, is about all of them.", "anchors": ["examples/c++20/simple_ml/main.cpp:21-238", "README.md:770-930"]}
{"id": "C91", "title": "A program with a policy and a node of its own behaves as if they were the library's", "statement": "The example custom_policy_and_node accepts exactly --version and a single even number, also a negative one, and writes the number; an odd number is refused with an error that names it, and a word that is no number with one that quotes it.", "quantifier": "all command lines, numbers and readers of numbers", "why_tests_cant": "The examples have no tests; the claim is about every word and both signs of %.", "anchors": ["examples/c++20/custom_policy_and_node/main.cpp:26-222", "include/arg_router/multi_arg_base.hpp:98-134"]}
