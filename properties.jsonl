{"id": "C01", "title": "Byte position to line/column and back is lossless", "statement": "For every document and every byte offset that lies on a character boundary of a line (not inside a line terminator), converting the offset to a line number plus a column (in UTF-8 bytes, UTF-16 code units or code points) and converting that line/column back yields the same byte offset.", "quantifier": "all texts (any mix of \\n, \\r\\n, \\r and astral characters), all character-boundary offsets, all three column encodings", "why_tests_cant": "the set of texts is infinite and the interesting cases combine line terminators, multi-byte and astral characters at every position", "anchors": ["crates/zuban_python/src/lines.rs: NewlineIndices, line_column_to_byte, position_infos, utf16_to_utf8_byte_offset"]}
{"id": "C02", "title": "Every client-supplied position resolves to a character boundary inside the document", "statement": "Whatever line and column a client sends, the server either rejects the position or resolves it to a byte offset that is at most the document length and never splits a multi-byte character, so slicing the document there cannot panic.", "quantifier": "all texts, all line numbers, all columns, all position encodings", "why_tests_cant": "a panic needs one particular combination of column and multi-byte text; no finite suite enumerates them", "anchors": ["crates/zuban_python/src/lines.rs: line_column_to_safe_byte, line_infos, utf16_to_utf8_byte_offset, InputPosition"]}
{"id": "C03", "title": "A position at the exact end of a line is accepted in every encoding", "statement": "A client position whose column equals the length of the line in the negotiated encoding is in bounds and resolves to the end of that line.", "quantifier": "all lines, all encodings", "why_tests_cant": "depends on how many astral characters the line contains", "anchors": ["crates/zuban_python/src/lines.rs: utf16_to_utf8_byte_offset"]}
{"id": "C04", "title": "Incremental document synchronisation equals the LSP splice semantics", "statement": "After a list of content changes the server's copy of a document equals the text obtained by applying each change in order to the previous text: a change without range replaces everything, a change with a range replaces exactly the characters between the two positions, positions being interpreted in the text produced by the previous changes.", "quantifier": "all initial texts, all finite lists of full and ranged changes", "why_tests_cant": "histories of edits are unbounded and the implementation caches a newline index across edits, so staleness only shows for particular sequences", "anchors": ["crates/zuban_python/src/lsp_utils.rs: apply_document_changes", "crates/zuban_python/src/lines.rs: NewlineIndices"]}
{"id": "C05", "title": "Cached inference points read back exactly what was stored", "statement": "For every combination of field values within their documented ranges, creating a cache entry and reading the fields back returns the same values, and updating one field of an entry leaves every other observable field unchanged.", "quantifier": "all field values in range, all sequences of field updates", "why_tests_cant": "the product of the bit-field domains is far too large to enumerate and overlap bugs affect single bits", "anchors": ["crates/zuban_python/src/database.rs: Point, PointKind, Locality, Specific"]}
{"id": "C06", "title": "Path normalisation is canonical", "statement": "Normalising a path is idempotent, yields a path without `.`/`..` and doubled separators that denotes the same location, and two paths spelled differently but with the same resolved components normalise to the same string.", "quantifier": "all absolute path strings", "why_tests_cant": "paths are arbitrary strings; equivalence classes of spellings are infinite", "anchors": ["crates/vfs/src/normalized_path.rs: NormalizedPath::normalize", "crates/vfs/src/path.rs: AbsPath"]}
{"id": "C07", "title": "Relative path rendering round-trips", "statement": "If the path of a diagnostic is rendered relative to a directory then resolving the rendered path against that directory gives the original path again.", "quantifier": "all pairs of normalised absolute paths", "why_tests_cant": "any two paths may share any prefix; the property is about all of them", "anchors": ["crates/vfs/src/lib.rs: path_relative_to, VfsHandler::split_off_first_item, split_off_last_item"]}
{"id": "C08", "title": "Semantic token streams decode to the tokens that were produced", "statement": "Decoding the delta-encoded integers of a semantic tokens response following the LSP specification yields exactly the (line, start, length, type, modifiers) of the tokens pushed, in order, for every sorted sequence of tokens, and never underflows.", "quantifier": "all sorted token sequences", "why_tests_cant": "relative encoding makes each token depend on the whole prefix", "anchors": ["crates/zubanls/src/semantic_tokens.rs: SemanticTokensBuilder", "crates/zuban_python/src/semantic_tokens.rs"]}
{"id": "C09", "title": "Every request receives exactly one response", "statement": "For every sequence of client messages, every request id received gets exactly one response (result or error), responses carry the id of the request they answer, and no response is sent for an id that was not received, including when the handler panics, when the method is unknown and when shutdown was already requested.", "quantifier": "all finite message histories, all handler outcomes (ok, error, panic)", "why_tests_cant": "quantifies over all interleavings of requests, notifications, panics and shutdown", "anchors": ["crates/zubanls/src/server.rs: GlobalState, RequestDispatcher, NotificationDispatcher", "crates/zubanls/src/panic_hooks.rs"]}
{"id": "C10", "title": "Open editor buffers take precedence over the disk", "statement": "While a document is open, the content used for it is the content of the last editor notification, whatever happens on disk; after it is closed the content on disk is used again.", "quantifier": "all interleavings of open/change/close notifications and disk writes", "why_tests_cant": "depends on histories of events", "anchors": ["crates/vfs/src/vfs.rs: store_in_memory_file, close_in_memory_file, invalidate_path, ensure_file_for_file_entry"]}
{"id": "C11", "title": "A change invalidates every transitive dependent", "statement": "When a file changes, every file that directly or indirectly depends on it is invalidated, files that do not depend on it are kept, and the invalidation procedure terminates for cyclic dependency graphs.", "quantifier": "all dependency graphs including cyclic ones, all changed files", "why_tests_cant": "graphs are unbounded and the interesting ones are cyclic", "anchors": ["crates/vfs/src/vfs.rs: Vfs invalidation", "crates/vfs/src/tree.rs: Invalidations, Entries"]}
{"id": "C12", "title": "Import resolution precedence", "statement": "Resolving a module name against a list of directories returns the first directory's match in list order where, inside a directory, a package with an __init__ wins over a stub file, a stub file wins over a source file, and a namespace package is returned only if no directory contains a regular match.", "quantifier": "all directory contents and search path lists", "why_tests_cant": "combinatorial in the contents of every directory on the path", "anchors": ["crates/zuban_python/src/imports.rs: python_import_with_needs_exact_case, load_init_file"]}
{"id": "C13", "title": "Import resolution is re-run whenever its outcome could change", "statement": "If a resolution of a module name was cached and later an entry is created or removed in one of the searched directories such that the resolution would now produce a different result, then the importing file is among the files that get invalidated.", "quantifier": "all directory contents, all single-entry changes", "why_tests_cant": "quantifies over all pairs of file system states", "anchors": ["crates/zuban_python/src/imports.rs: python_import_with_needs_exact_case", "crates/vfs/src/tree.rs: add_missing_entry, Invalidations"]}
{"id": "C14", "title": "Class linearisation agrees with Python's C3 algorithm", "statement": "Whenever Python's C3 algorithm accepts a class definition the computed method resolution order is the C3 order; whenever C3 rejects it an inconsistent-MRO error is reported.", "quantifier": "all class hierarchies", "why_tests_cant": "hierarchies are unbounded; a mistake shows only for particular orders of bases", "anchors": ["crates/zuban_python/src/file/type_computation/class.rs: linearize_mro, linearize_mro_and_return_linearizable"]}
{"id": "C15", "title": "The method resolution order contains each ancestor exactly once", "statement": "For every class whether or not its bases are consistent, every ancestor occurs exactly once in the method resolution order.", "quantifier": "all class hierarchies", "why_tests_cant": "fallback path for inconsistent hierarchies is only exercised by ill-formed programs", "anchors": ["crates/zuban_python/src/file/type_computation/class.rs: linearize_mro_and_return_linearizable"]}
{"id": "C16", "title": "Union simplification preserves the set of values", "statement": "Simplifying a union yields a type containing exactly the values of the original members, without duplicated or redundant (subtype of another non-literal member) entries, independent of whether the input was simplified before.", "quantifier": "all finite lists of member types over any subtype preorder", "why_tests_cant": "the subtype relation is arbitrary and the order of the members matters to the algorithm", "anchors": ["crates/zuban_python/src/type_/union.rs: merge_simplified_union_type, contract_bool_literals"]}
{"id": "C17", "title": "Syntax tree navigation is faithful to the tree", "statement": "For every syntax tree stored in the flat node array, children, parent, next/previous sibling, first/last leaf and next/previous leaf return exactly the nodes that the tree structure defines.", "quantifier": "all finite trees, all nodes", "why_tests_cant": "trees are unbounded; offsets interact with depth and sibling counts", "anchors": ["crates/parsa/src/lib.rs: iter_children, parent, next_sibling, previous_sibling, next_leaf, previous_leaf, last_leaf_in_subtree"]}
{"id": "C18", "title": "The leaf under the cursor is found", "statement": "For every tree and cursor position the leaf returned by the position lookup is the last leaf starting at or before the position unless the position lies in whitespace after it, in which case it is the following leaf; a leaf is always found.", "quantifier": "all trees and positions", "why_tests_cant": "zero-length leaves and gaps between leaves can occur anywhere", "anchors": ["crates/parsa/src/lib.rs: leaf_by_position"]}
{"id": "C19", "title": "Backtracking replays the token stream without loss or duplication", "statement": "For every sequence of start/reset/stop operations interleaved with reads, the tokens observed after a reset are the same tokens observed the first time and the concatenation of tokens finally consumed is a prefix of the tokenizer's output.", "quantifier": "all token streams, all operation sequences", "why_tests_cant": "depends on histories of nested operations", "anchors": ["crates/parsa/src/backtracking.rs: BacktrackingTokenizer"]}
{"id": "C20", "title": "Subset construction preserves the language of a grammar rule", "statement": "The deterministic automaton generated from a grammar rule accepts a sequence of grammar symbols if and only if the rule derives it.", "quantifier": "all rules built from sequence, alternative, optional, repetition; all symbol sequences", "why_tests_cant": "language equality over infinitely many words and rules", "anchors": ["crates/parsa/src/automaton.rs: build, group_nfas, nfa_to_dfa, construct_powerset"]}
{"id": "C21", "title": "Tokenizer progress and coverage", "statement": "For every source text tokenization terminates with an end marker, tokens are in source order, do not overlap, lie inside the text, and the number of dedent tokens equals the number of indent tokens.", "quantifier": "all source texts", "why_tests_cant": "all strings, including invalid Python", "anchors": ["crates/parsa_python/src/tokenizer.rs: PythonTokenizer"]}
{"id": "C22", "title": "Per-module override patterns match like mypy", "statement": "An override section pattern applies to a module exactly when mypy's documented rule says so: a name matches itself, `foo.*` matches foo and all submodules, and `*` in the middle of a pattern matches zero or more components.", "quantifier": "all patterns and all module names", "why_tests_cant": "wildcards range over all component lists", "anchors": ["crates/config/src/lib.rs: OverridePath::matches_file_path, check_wildcard_parents"]}
{"id": "C23", "title": "More specific overrides win", "statement": "If several override sections apply to a module the value of a flag is the one from the highest-priority section: concrete module names over unstructured wildcards over well-structured wildcards, and among well-structured ones the more specific over the more general, irrespective of order in the config file.", "quantifier": "all lists of override sections and modules", "why_tests_cant": "all permutations of sections", "anchors": ["crates/config/src/lib.rs: order_overrides_for_priority, OverrideConfig::apply_to_flags"]}
{"id": "C24", "title": "Inverted option names negate the value", "statement": "Setting an option through its negated spelling (`no_x`, `allow_x`/`disallow_x`) has exactly the effect of setting the plain option to the negated value and negated spellings never nest.", "quantifier": "all option names and values", "why_tests_cant": "all strings as option names", "anchors": ["crates/config/src/lib.rs: maybe_invert, set_flag, set_bool_init_flags"]}
{"id": "C25", "title": "Mode selection precedence", "statement": "A mode given explicitly by the user always determines the preset of flags; otherwise the mode in the zuban configuration applies; otherwise the kind of configuration section found decides.", "quantifier": "all combinations of mode arguments and configuration contents and files", "why_tests_cant": "precedence over a product of sources", "anchors": ["crates/config/src/lib.rs: get_zuban_config_and_apply_mode, ModeChoice", "crates/config/src/searcher.rs: find_config"]}
{"id": "C26", "title": "Command line flags override configuration", "statement": "For every flag, if the positive or the negative spelling is given on the command line then the resulting value is the one given, whatever the configuration said (including together with --strict); otherwise the value is that of the configuration (or strict).", "quantifier": "all configurations, all sets of command line switches", "why_tests_cant": "2^60 combinations of switches", "anchors": ["crates/cli_args/src/lib.rs: apply_mypy_flags"]}
{"id": "C27", "title": "String literal evaluation matches Python", "statement": "The value computed for a string literal is the value Python computes: escapes are decoded, carriage returns are normalised to newlines, raw literals are kept verbatim, adjacent literals are concatenated; in particular a literal without escapes denotes its own text.", "quantifier": "all literal bodies", "why_tests_cant": "all strings over all escapes", "anchors": ["crates/parsa_python_cst/src/strings.rs: PythonString::from_literal, parse_hex, parse_python_octal, unpack_string_or_bytes_content"]}
{"id": "C28", "title": "Bytes literal evaluation matches Python", "statement": "The value computed for a bytes literal is the value Python computes.", "quantifier": "all bytes literal bodies", "why_tests_cant": "all byte strings over all escapes", "anchors": ["crates/parsa_python_cst/src/bytes.rs: parse_python_bytes_literal"]}
{"id": "C29", "title": "A license is accepted only if signed and currently valid", "statement": "License verification succeeds only if the signature verifies under one of the built-in keys and the current time is within the validity period; and the period of validity cannot be altered without invalidating the signature.", "quantifier": "all license documents and times", "why_tests_cant": "universally quantified over forged documents", "anchors": ["crates/licensing/src/lib.rs: License::verify_with_keys, to_bytes_message"]}
{"id": "C30", "title": "Type-ignore comments suppress exactly the listed errors on their lines", "statement": "A diagnostic is suppressed if and only if one of the lines it spans carries an ignore comment that is bare or lists its error code (or super code); several comments combine.", "quantifier": "all source regions, all comments, all error codes", "why_tests_cant": "arbitrary text in comments", "anchors": ["crates/parsa_python_cst/src/lib.rs: type_ignore_comment_for_region, maybe_type_ignore", "crates/zuban_python/src/diagnostics.rs: is_ignored_and_return_non_covered_error_code"]}
{"id": "C31", "title": "The quick fix that inserts an ignore comment works", "statement": "After applying the offered `ignore` edit to the source, the diagnostic it was offered for is suppressed and the rest of the text is unchanged.", "quantifier": "all source lines and error codes for which the fix is offered", "why_tests_cant": "all lines with and without pre-existing comments", "anchors": ["crates/parsa_python_cst/src/code_actions.rs: insertion_point_for_type_ignore, format_for_kind"]}
{"id": "C32", "title": "Docstring dedent removes exactly the common indentation", "statement": "Dedenting a text removes the same amount of leading whitespace from every non-blank continuation line, namely the largest amount common to all of them, keeps everything else, and is idempotent.", "quantifier": "all texts", "why_tests_cant": "all combinations of indentation", "anchors": ["crates/utils/src/lib.rs: dedent_cow"]}
{"id": "C33", "title": "Notebook cells stay consistent with the notebook document", "statement": "After any sequence of cell insertions, removals and content changes the virtual file of the notebook consists of the code cells in notebook order with their latest contents.", "quantifier": "all histories of notebook change notifications", "why_tests_cant": "histories with markdown cells interleaved", "anchors": ["crates/zubanls/src/notebooks.rs", "crates/zubanls/src/notification_handlers.rs: handle_did_change_notebook"]}
{"id": "C34", "title": "Selection ranges strictly grow", "statement": "Each range in a selection-range response strictly contains the previous one and contains the requested position.", "quantifier": "all trees, all positions", "why_tests_cant": "arbitrary nesting", "anchors": ["crates/parsa_python_cst/src/ranges.rs: SelectionRanges, initial_node_for_selection_ranges"]}
{"id": "C35", "title": "Exit status and summary reflect the diagnostics", "statement": "The command exits with a failing status if and only if at least one error was reported and the summary counts errors and files correctly.", "quantifier": "all lists of diagnostics", "why_tests_cant": "all combinations of severities and files", "anchors": ["crates/zmypy/src/lib.rs: with_exit_code", "crates/zuban_python/src/lib.rs: Diagnostics::summary, error_count"]}
{"id": "C36", "title": "Recursion guards detect every cycle and nothing else", "statement": "Following a chain of nested evaluations, the guard reports a cycle exactly when the item being entered is already being evaluated; hence every evaluation over finitely many items terminates.", "quantifier": "all chains of evaluation", "why_tests_cant": "all graphs", "anchors": ["crates/utils/src/lib.rs: AlreadySeen"]}
{"id": "C37", "title": "Python version gates are monotone and parsing round-trips", "statement": "A version requirement satisfied for one Python version is satisfied for all later ones; parsing the rendered form of a version gives the version back.", "quantifier": "all versions", "why_tests_cant": "infinitely many versions", "anchors": ["crates/config/src/lib.rs: PythonVersion"]}
{"id": "C38", "title": "Clients get locations in the form they announced", "statement": "A client that announced support for location links gets links and a client that did not gets plain locations.", "quantifier": "all capability combinations and results", "why_tests_cant": "the client capability space", "anchors": ["crates/zubanls/src/request_handlers.rs: run_goto_like"]}
{"id": "C39", "title": "Virtual environment configuration flags are honoured", "statement": "include-system-site-packages = true in pyvenv.cfg makes the system site packages visible for every legal spelling of the key-value line.", "quantifier": "all pyvenv.cfg contents", "why_tests_cant": "all whitespace layouts", "anchors": ["crates/config/src/venv.rs, crates/zuban_python/src/sys_path.rs: include_system_site_packages_in_pyvenv_cfg"]}
{"id": "C40", "title": "Parsing preserves the token sequence", "statement": "The leaves of the syntax tree produced for a source file are, in order, exactly the tokens consumed by the parser and the tree array is well formed (each node's next offset points to the next sibling, start/length cover its leaves).", "quantifier": "all grammars tables and token sequences, including erroneous input", "why_tests_cant": "all token sequences, with backtracking and error recovery", "anchors": ["crates/parsa/src/grammar.rs: Grammar::parse, apply_transition, apply_plan, error_recovery, end_of_node"]}
{"id": "C41", "title": "Expanding a range to whole lines covers exactly the touched lines", "statement": "Given an in-range selection, the expansion to full lines starts at the beginning of the line holding its start and ends at the end of the line holding its end, so it contains the selection and no other line.", "quantifier": "all texts, all start/end offsets", "why_tests_cant": "every text, every line terminator mix, every pair of offsets", "anchors": ["crates/zuban_python/src/lines.rs: NewlineIndices expand_range_to_full_lines"]}
{"id": "C42", "title": "Listing numbered lines lists every line once in order", "statement": "Iterating over the lines with their numbers yields each line of the requested text slice exactly once, in order, with consecutive numbers.", "quantifier": "all texts and all start lines", "why_tests_cant": "every text and terminator mix", "anchors": ["crates/zuban_python/src/lines.rs: numbers_with_lines"]}
{"id": "C43", "title": "Invalidating a file drops every cached fact about it", "statement": "When a file is invalidated every cached entry of a dependent file that directly refers to the file or is marked as to be rechecked is dropped and every other cached entry is left untouched.", "quantifier": "all cache contents created through the API, all invalidated files", "why_tests_cant": "every combination of entry kinds, localities and files", "anchors": ["crates/zuban_python/src/database.rs: Points::invalidate_references_to"]}
{"id": "C44", "title": "Restoring a cache backup undoes exactly the saved range", "statement": "After any writes to the cache, restoring a backup of a range makes the entries of that range equal to those at the time of the backup and leaves all other entries as they are.", "quantifier": "all cache contents, ranges and intermediate writes", "why_tests_cant": "all contents and ranges", "anchors": ["crates/zuban_python/src/database.rs: Points::backup, Points::reset_from_backup"]}
{"id": "C45", "title": "Directory containment", "statement": "A normalised directory path contains a normalised path iff the latter denotes the directory itself or a location below it (not merely a string prefix).", "quantifier": "all pairs of absolute paths", "why_tests_cant": "all path spellings", "anchors": ["crates/vfs/src/path.rs: AbsPath::contains_sub_file"]}
{"id": "C46", "title": "Splitting path items is lossless", "statement": "Splitting the first or last item off a path returns parts that, joined by one separator, are the original path, the item itself containing no separator.", "quantifier": "all path strings", "why_tests_cant": "all strings", "anchors": ["crates/vfs/src/lib.rs: split_off_first_item, split_off_last_item"]}
{"id": "C47", "title": "Every crash of a handler is reported to the client", "statement": "Whenever handling a client message crashes, the client is shown a message about it.", "quantifier": "all message histories with any number of crashing handlers", "why_tests_cant": "the number and position of crashes in a session is unbounded; a single-crash test passes", "anchors": ["crates/zubanls/src/panic_hooks.rs: enter", "crates/zubanls/src/server.rs: run_server, on_lsp_message_and_return_on_shutdown"]}
{"id": "C48", "title": "Types are found equal exactly when they are the same", "statement": "assert_type accepts an expression exactly when its type is the type that is written down, up to the order of union members, the reason of an Any and whether a literal was inferred; every type equals itself, and the order of the comparison does not matter.", "quantifier": "all pairs of (finite) types, nested to any depth", "why_tests_cant": "types nest without bound; tests compare a few types of the same shape", "anchors": ["crates/zuban_python/src/type_helpers/typing.rs: execute_assert_type, is_equal_type_internal, is_equal_union_or_intersection"]}
{"id": "C49", "title": "Calls are accepted exactly when Python executes them with arguments of the right types", "statement": "A call with positional and keyword arguments is accepted exactly when Python binds all of its arguments without a TypeError and every argument has the type of the parameter that receives it; every argument is checked against that parameter and no other. A call with *xs or **kws is accepted exactly when, for some contents of xs and kws, Python binds all arguments, and whenever it does every argument has the type of its parameter.", "quantifier": "all parameter lists that Python accepts, all numbers of positional and keyword arguments in any order, all contents of xs and kws, all types and all relations between types and values", "why_tests_cant": "parameter lists, calls and the contents of xs and kws are unbounded and the iterator keeps state between parameters; tests cover a few combinations of kinds", "anchors": ["crates/zuban_python/src/params.rs: InferrableParamIterator", "crates/zuban_python/src/matching/matcher/utils.rs: match_arguments_against_params", "crates/zuban_python/src/arguments.rs: Arg"]}
{"id": "C50", "title": "A function that matches a callable type can be called in every way the type allows", "statement": "When the parameters of a function are found to match those of a callable type (or of an overridden method), every call with positional and keyword arguments that the type allows is executed by the function without a TypeError and with arguments of the right types; for Callable[[A, B], R] the match is found exactly then; every function matches its own type.", "quantifier": "all pairs of parameter lists that Python accepts, all calls, all types with a sound comparison", "why_tests_cant": "the property quantifies over all calls of two unbounded parameter lists; tests compare a few pairs of signatures and never the calls", "anchors": ["crates/zuban_python/src/params.rs: matches_simple_params, matches_simple_params_part2, match_star_star, is_trivial_suffix"]}
{"id": "C51", "title": "An overloaded call without an error is taken by a variant for all values of the arguments", "statement": "When no error is reported for a call of an overloaded function, then for all values that the arguments can have by their types some variant accepts them, and what it returns is a value of the type inferred for the call. An error is reported exactly if no variant accepts the arguments and there is a choice of members of the unions among them that no variant accepts (or there are too many unions); the first accepting variant is the one that is used; an Any among the arguments does not decide between variants with different results.", "quantifier": "all lists of variants, all calls, all argument types (nested unions, bools, enums, tuples), all answers of the check of one variant", "why_tests_cant": "the members of all arguments are combined with all variants; tests try a few overloads with one or two unions, and never the values of the types", "anchors": ["crates/zuban_python/src/type_helpers/overload.rs: find_matching_function, check_union_math, execute_internal, are_any_arguments_ambiguous_in_overload", "crates/zuban_python/src/type_/mod.rs: maybe_union_like_with_materializations, merge_matching_parts", "crates/zuban_python/src/arguments.rs: should_do_union_math_for_overloads, ArgKind::Overridden"]}
{"id": "C52", "title": "A line end separates statements exactly outside of brackets", "statement": "For every source text and every token sequence the tokenizer returns for it (up to the first f-string): a Newline token is only produced when no bracket is open and the line is not empty, and outside of brackets every line end after a token that is not continued by a backslash is a Newline token. Brackets count from the tokens; a semicolon, a dedent or a keyword that can only begin a statement closes them all.", "quantifier": "all source texts without a line that begins with white space and a backslash before its end", "why_tests_cant": "unbounded nesting, comments, continuations and unbalanced brackets in any order", "anchors": ["crates/parsa_python/src/tokenizer.rs: PythonTokenizer::next, skip_whitespace, encountered_break_token"]}
{"id": "C53", "title": "Subscripts, slices, sums and multiples of tuples have the type of what Python computes", "statement": "For t[i] with a literal index (or a union of them, or any int) the item Python finds has the inferred type, an IndexError is reported exactly if it can occur for a tuple of the type of t (tuples of arbitrary length aside), and the inferred type has no other values. For t[start:stop:step] the tuple Python computes has one of the inferred types, and a step of zero is reported. t + u, t * k and tuple[..., *u, ...] have exactly (for *: at least) the tuples one gets by concatenation.", "quantifier": "all tuple types (fixed, arbitrary length, with an unpack before, between and after other items), all integers as indexes and bounds, all tuples of the type", "why_tests_cant": "start, stop and step are unbounded integers of either sign and tuples with an unpack have any length; tests try a few combinations", "anchors": ["crates/zuban_python/src/type_/tuple.rs: Tuple::get_item, tuple_add_internal, tuple_mul_internal, add_before_and_after, MaybeUnpackGatherer", "crates/zuban_python/src/inferred.rs: run_on_int_literals", "crates/zuban_python/src/getitem.rs: callback_on_tuple_indexes"]}
{"id": "C54", "title": "An accepted assignment is safe", "statement": "If a value of type B is accepted where type A is expected (assignment, argument, return), then every value of type B is a value of type A, for every program and every values of its classes that respect the base classes, variances, bounds, promotions and metaclasses that the program declares. Where types have to be the same (arguments of invariant classes) they have the same values. In the other direction a value is never rejected where its own type, object or a union with its type as a member is expected, Never is accepted everywhere, and a union is accepted where all its members are.", "quantifier": "all programs (classes with bases, variances, metaclasses, promotions; enums, NewTypes, type variables), all types over them, all worlds of values that obey the laws, any depth of nesting", "why_tests_cant": "A test compares a pair of types with the expected verdict. The matcher is mutually recursive over classes, unions, tuples, type[...] and the MRO with early returns; whether some combination of them lets a value through is a statement about all pairs of types and about values, which tests never see.", "anchors": ["crates/zuban_python/src/type_/matching.rs", "crates/zuban_python/src/match_.rs", "crates/zuban_python/src/matching/generic.rs"]}
{"id": "C55", "title": "Unpacking, loops, displays and sequence patterns agree with Python", "statement": "In an assignment to nested targets (with at most one starred target per list), reported or not, every name gets a value of a type inferred for it, whatever is unpacked: tuples with and without a part of any length, unions, other iterables, strings, type variables. Where tuples are unpacked, no report means that Python does not raise, and if the lengths are known a report means that it raises. The variable of a loop has the type of each item, a tuple display has the inferred type, in a match statement the names of a sequence pattern get values of their types, the subject is narrowed to a type it has and is not taken to be exhausted if it may not match. None of this panics.", "quantifier": "all targets (any nesting), all types, all values of the types, all displays, all sequence patterns over arbitrary patterns of the items; worlds of values that obey the laws", "why_tests_cant": "A test has one list of targets and one tuple. Positions are counted from both ends, around a starred target on one side and a part of any length on the other, through several cursors; which item meets which type for all lengths and nestings is not visible in examples.", "anchors": ["crates/zuban_python/src/matching/mod.rs", "crates/zuban_python/src/file/inference.rs", "crates/zuban_python/src/file/utils.rs", "crates/zuban_python/src/file/flow_analysis.rs"]}
{"id": "C56", "title": "Flow analysis is right about every execution", "statement": "The type shown for a name, attribute or subscript at a place in a function is a type of the value found there by every execution that comes to the place, and code that is taken to be unreachable is not reached, whatever is assigned, deleted, tested in conditions (with and, or, not and assignment expressions), and whatever way control takes through branches, loops with break, continue and else, try with handlers and else, with blocks, return, raise and assert; an exception may be raised anywhere.", "quantifier": "all functions (any nesting of statements), all worlds of types and values that obey the laws, all declarations, all initial stores, all executions (any number of iterations, exceptions at any point)", "why_tests_cant": "A test runs the analysis on one function and compares with an expected type. That no execution contradicts the type needs all paths through loops and exceptions; how frames are merged depends on what each branch assigned or only narrowed, and on the nesting.", "anchors": ["crates/zuban_python/src/file/flow_analysis.rs", "crates/zuban_python/src/file/diagnostics.rs"]}
{"id": "C57", "title": "Flow analysis narrows as far as it can", "statement": "In a function without loops and try blocks, every value of the type shown for a name at a place is found there by some execution that comes to the place: narrowing by conditions and assertions, returns from branches and assignments are all taken into account, and nothing is shown for code that is not reached.", "quantifier": "all functions (any nesting of branches), all conditions built with and, or and not, all worlds of types with exact unions and tests, all values of the types shown, all values of other names at the start", "why_tests_cant": "A test compares the type shown with the one expected in one function. That each value of the type is attained needs an execution for every value, through branches that are merged depending on what was assigned or only narrowed in them.", "anchors": ["crates/zuban_python/src/file/flow_analysis.rs", "crates/zuban_python/src/file/diagnostics.rs"]}
{"id": "C58", "title": "Assignability is exactly the relation of the typing specification", "statement": "Where a type is expected, another is accepted if and only if the rules of the typing specification relate them: the type hierarchy with type arguments compared by the variance of their type variables, equivalence of invariant arguments, tuples, unions, literals, enums, Any, Never, the numeric promotions, and bool as the union of its two literals. What is not related is rejected. There always is an answer unless base classes nest their own class in arguments that are not covariant.", "quantifier": "all types built from classes with any type arguments, tuples, unions, literals, enums, None, Any and Never; all programs without protocols, with any classes and type variables of any variance; all depths of recursion", "why_tests_cant": "A test compares one pair of types. That nothing else is accepted or rejected, and that the recursion ends, ranges over all pairs of types and all class hierarchies, with functions that call each other for the supertypes, the other side and the promotions, and stop early depending on how similar the types are.", "anchors": ["crates/zuban_python/src/type_/matching.rs", "crates/zuban_python/src/match_.rs", "crates/zuban_python/src/matching/generic.rs"]}
{"id": "C59", "title": "Comparing the length of a tuple narrows it to exactly the tuples of these lengths", "statement": "After a comparison of len(x) with an int literal, on either side of ==, !=, <, >, <= or >=, the type of x that is shown where the comparison holds (and where it does not) has every value of the declared type with such a length, and no value that x did not have before. With an ordering operator and a number of at most 7 it has exactly these values if x is made of tuples and named tuples, and so has the branch of equality. Every comparison with a number that is not negative is answered.", "quantifier": "all types of x with any unions of tuples of fixed length, of any length, or with an unpack, named tuples and other types; all operators, both orders of the operands, all numbers", "why_tests_cant": "A test looks at a few tuples and numbers. That the two branches split the values, for all lengths of the fixed parts, all numbers below and above the limit of precision and all unions, is a statement over infinitely many cases with different arithmetic.", "anchors": ["crates/zuban_python/src/file/flow_analysis.rs", "crates/zuban_python/src/type_/mod.rs", "crates/zuban_python/src/type_/union.rs"]}
{"id": "C60", "title": "Comparing a value with another one narrows it to a type that has it", "statement": "After x is y, x == y, x in (a, b, c), x in container and type(x) is C, the type of x that is shown in each branch has the value of x, whatever x and the other value are. No value of x is lost between the branches, and none is added that x did not have. After comparing x with every one of the values of a type made of None, literals, bool and enums the type of x is Never (assert_never is accepted), and not before.", "quantifier": "all types of x and of the other side with any unions, all values of these types, all equalities, all enums with any number of members, flags included; all sequences of comparisons, all tuples of entries", "why_tests_cant": "A test shows the narrowed type for some types. That the value is in it depends on what equality and identity do for all the values of all the parts of a union, and exhaustiveness is about every order of comparisons; both need an argument over all of them.", "anchors": ["crates/zuban_python/src/file/flow_analysis.rs", "crates/zuban_python/src/type_/enum_.rs"]}
{"id": "C61", "title": "The truth of a value narrows it to a type that has it, and x or y has the type of its value", "statement": "In the branches of a test of x itself (if x, not x, while x, the operands of and and or) the type of x that is shown has the value of x, and no value that x did not have. For None, bool, literals of numbers, tuple[T, ...] and enums without methods it has exactly the values that are true, and exactly the ones that are false. The type of x or y (and of x and y), and what is known about its truth in a longer expression, is right for the value that Python computes, and has no value that neither operand has.", "quantifier": "all types of x with any unions of these, all values, all classes with any __bool__ and __len__, all expressions of and and or, whatever is known about the truth of their parts", "why_tests_cant": "A test evaluates a few expressions. Which values are true depends on methods that a class or its subclasses declare, and what an expression of and and or may be on the order in which the truths of all parts are combined.", "anchors": ["crates/zuban_python/src/file/flow_analysis.rs"]}
{"id": "C62", "title": "isinstance narrows a value to a type that has it", "statement": "After isinstance(x, C), issubclass(x, C), a TypeIs function or a class pattern, the type of x that is shown in each branch has the value of x, whatever the types of x and the classes are. No value is added in the branch where the test is false. Numbers are the hard part: a float may be an int for the types, but isinstance(1, float) is false.", "quantifier": "all types of x with any unions, type variables and Any; all classes and unions of classes that are tested; all values; all class hierarchies (what fits, is below, overlaps or has a common subclass is given with its laws)", "why_tests_cant": "A test shows the narrowed types for some pairs of types. That the value of x is in them depends on every pair of a part of a union and a class together with all the values these have, on subclasses of both that may exist anywhere, and on the promotions of numbers.", "anchors": ["crates/zuban_python/src/file/flow_analysis.rs", "crates/zuban_python/src/type_/intersection.rs"]}
{"id": "C63", "title": "The __init__ of a dataclass is the one Python makes", "statement": "For a dataclass, the parameters that zuban checks calls against are those of the __init__ that Python generates from the fields of the class and its bases: same names, types, order, kinds and defaults. An error is reported exactly where Python raises one for a missing default, a second KW_ONLY or a mix of frozen and other classes. __match_args__, __post_init__, __slots__ and dataclasses.replace agree with this.", "quantifier": "all programs with any number of classes, dataclasses or not, any MROs, bodies, annotations (fields, InitVar, ClassVar, KW_ONLY), field() arguments and class options", "why_tests_cant": "A test shows one class. The parameters come from all bases in the order of the MRO, which replace, insert and append to what came before; whether this gives the order of a Python dictionary depends on every combination of redeclared, keyword-only and hidden fields along the hierarchy.", "anchors": ["crates/zuban_python/src/type_/dataclass.rs"]}
{"id": "C64", "title": "Conditions on the version and platform are decided as Python decides them", "statement": "If zuban takes a condition on sys.version_info, sys.platform, TYPE_CHECKING or a configured symbol to be true or false, then Python with the configured version and platform evaluates it to true or false. Of an if statement the branch that Python runs is always analysed, and only this one if all conditions are of these kinds. The usual conditions are always decided and none of them crashes zuban.", "quantifier": "all conditions built with and, or, not, parentheses and comparisons, all configured versions, platforms and symbols, all micro versions and release levels, and all behaviours of the other names and objects in them", "why_tests_cant": "A test compares a few versions. Whether an answer is right depends on the operator, the side on which the version is written, the bounds of the slice, the number of entries and the parts of the version that are not configured, and wrong answers silently drop the branch that runs.", "anchors": ["crates/zuban_python/src/file/name_binder.rs"]}
{"id": "C65", "title": "A name belongs to the scope Python says", "statement": "The scope whose variable a name refers to is the one of the scoping rules of Python: global and nonlocal declarations, bindings anywhere in a function, classes that nested functions do not see, comprehensions with their own scope and walrus targets in the scope around. Names of no scope are left for the builtins. A use of a variable of the scope before it is bound is always reported, and nothing else is.", "quantifier": "all files as nestings of functions, classes, lambdas, comprehensions, generators, loops and match statements, with any order of bindings, uses, walruses and global and nonlocal declarations", "why_tests_cant": "A test has a few nested scopes. Names are resolved in several passes at different times (at once, at the end of a loop, when the scope is closed, in the parent), so the answer depends on the order of everything in all scopes around.", "anchors": ["crates/zuban_python/src/file/name_binder.rs"]}
{"id": "C66", "title": "TypedDicts keep their promises", "statement": "A dict that is made by an accepted call or display of a TypedDict, and that is then seen as any TypedDicts, dict or Mapping zuban accepts it for and changed through any of these views by operations zuban accepts, always has the required keys of each view and values of the types each view says; read-only items stay as they were through that view. Reading has the inferred type. Narrowing with `in` drops no TypedDict the dict may be one of. Nothing is rejected that would be safe.", "quantifier": "all TypedDicts (required, not required, read-only items, extra items, closed), all types and values, all sequences of assignments between views and operations ([]=, del, pop, popitem, clear, setdefault, get, update) and all contracts others rely on", "why_tests_cant": "A test tries a pair of TypedDicts and an operation. That a view is safe is a statement about all programs that hold the same dict through other views; it depends on the rules for each combination of required, read-only, extra items and closed on both sides.", "anchors": ["crates/zuban_python/src/type_/typed_dict.rs", "crates/zuban_python/src/type_/matching.rs", "crates/zuban_python/src/file/utils.rs", "crates/zuban_python/src/file/flow_analysis.rs", "crates/zuban_python/src/type_/common_base_type.rs", "crates/zuban_python/src/type_/common_sub_type.rs"]}
{"id": "C67", "title": "The types inferred for the type variables of a call make the call right", "statement": "If a call of a generic function is accepted, then with the types that are inferred for the type variables every argument is assignable to its parameter. Conversely a call is accepted if there are such types at all. The inferred type is the least one if a value bounds it from below, otherwise the greatest one; neither the order of the arguments nor repeating one changes whether the call is accepted or, up to types that are the same, what is inferred. A type variable with a declared bound gets a type below the bound, one with constraints gets one of the constraints.", "quantifier": "For all types of parameters made of type variables, classes of any variance and unions, all argument types and all orders of the arguments.", "why_tests_cant": "Bounds are merged one after the other in five kinds of states with three variances; whether the result still satisfies the constraints of arguments that came much earlier, and whether it depends on their order, cannot be settled by some calls.", "anchors": ["crates/zuban_python/src/matching/matcher/type_var_matcher.rs", "crates/zuban_python/src/matching/matcher/bound.rs", "crates/zuban_python/src/type_/matching.rs"]}
{"id": "C68", "title": "The type and the verdict of a binary operation are those of Python", "statement": "The methods that are looked up for an operator, its augmented assignment and the checks of reverse and in-place methods are those that Python calls. If an operation on direct instances of the classes of the operands is accepted, it does not raise a TypeError; if it is rejected, it does for the pair of classes in the message. The inferred type covers the value, whichever of the two operands Python asks first. If the method of the left operand is taken and the checks at the definitions of reverse methods do not complain, the same is true of instances of subclasses. An accepted augmented assignment does not raise a TypeError and its type covers the value. An accepted `in` can be asked of some container, and every container has `__contains__` or can be iterated over.", "quantifier": "For all class hierarchies with linear method resolution orders, all definitions of the methods, all unions of operand types and all operators.", "why_tests_cant": "The method depends on the classes of both operands, on where their methods are defined and on the order in which the operands are asked; the programs in which the order matters need three or four classes and there is no bound on the hierarchies.", "anchors": ["crates/zuban_python/src/file/inference.rs", "crates/zuban_python/src/file/diagnostics.rs", "crates/parsa_python_cst/src/lib.rs"]}
{"id": "C69", "title": "A comparison of values that may be equal is not reported as non-overlapping", "statement": "With --strict-equality, `x == y` is reported as a non-overlapping equality check only if the two types have no values that could be equal: if some value of the first type may be equal to some value of the second one (the classes are related by inheritance or promotion, the items of tuples and the type arguments may be equal, the literals and enum members are the same; None and empty containers aside) there is no report. The answer does not depend on the order of the operands. Types said to overlap do share a value when there are no type arguments and literals.", "quantifier": "for all programs (class hierarchies, variances, promotions), all types built from classes, tuples, unions, literals, enums, None, Any and Never nested arbitrarily, all values and all equality relations with the stated laws", "why_tests_cant": "The overlap check recurses through unions, base classes with substituted type arguments and tuple shapes; tests compare a few pairs of types and cannot cover all nestings and hierarchies, nor that the recursion never contradicts itself in the other order.", "anchors": ["crates/zuban_python/src/type_/overlaps.rs", "crates/zuban_python/src/file/inference.rs"]}
{"id": "C70", "title": "A class whose instantiation is reported is abstract", "statement": "`C()` is reported as the instantiation of an abstract class only if Python refuses it too: every name in the list of abstract attributes is an abstract method of the class as ABCMeta computes it. A class with an abstract method in its own body is reported, and so is a class whose only base has it, unless the class or another class of the order defines the name. Exactly those names are listed that are marked in the class, or are marked in a direct base (or left open by a protocol that is one) and defined in no other class of the order.", "quantifier": "for all programs: class hierarchies with any number of bases, all class bodies (functions with decorators, assignments, declarations, nested classes, imports), protocols and dataclasses", "why_tests_cant": "Whether a class is abstract depends on the linearizations of all classes above it and all definitions in their bodies; tests check a few small hierarchies.", "anchors": ["crates/zuban_python/src/file/type_computation/class.rs", "crates/zuban_python/src/type_helpers/class.rs", "crates/zuban_python/src/file/name_binder.rs"]}
{"id": "C71", "title": "A join of types has the values of both, and so does the type of a list display", "statement": "The join of two types (the type of the items of `[a, b]` in the mypy mode, of `a if x else b`, of two type arguments) has all values of both types, so every item of a list or set display is a value of the inferred item type, whether joins or unions are used. The meet of two types has only values that both types have, and exactly those if there are no unions and no `type[...]`. For instances of plain classes the join is the first class of the one's MRO that is in the other's; with a promotion (int and float) it is the type that is promoted to; two literals of a class have the class; instances of the same class with covariant type variables stay instances of it, and tuples stay tuples, of the same length if both have it; the join with None or a union has no other values than both.", "quantifier": "for all programs, worlds of values that respect its definitions, pairs of types and lists of items: nested classes with any variances, tuples of all kinds, unions, literals, enums, dataclasses, `type[...]`, NewTypes, bounded type variables", "why_tests_cant": "A join walks two MROs and calls itself for type arguments with joins, meets or equality by variance; a wrong variance or order shows only for particular nested generics and the result is never printed in most programs.", "anchors": ["crates/zuban_python/src/type_/common_base_type.rs", "crates/zuban_python/src/type_/common_sub_type.rs", "crates/zuban_python/src/file/utils.rs"]}
{"id": "C72", "title": "The members of an enum are those that Python makes", "statement": "For the body of an enum class that Python runs without an error, the names that the checker takes for members or aliases are exactly the names Python makes members of, the members are in Python's order, and an alias stands for a member with the same value. If the members have different values, iterating the class gives the checker's members and each attribute is the one found. The class counts as one with members (so it cannot be a base class) just when Python makes some. A reported reuse of a member name is one that makes Python raise, unless the second use only declares the name. For `Enum('E', 'A, B')` the members are the words that Python splits, each with the place where it stands in the string, and a reuse is reported just when Python raises.", "quantifier": "for all bodies of any length with assignments, calls of member and nonmember, lambdas, aliases, decorated functions and classes, declarations, imports; all names with any number of underscores; all values; all strings", "why_tests_cant": "The rules are about the forms of names, the order of bindings, decorators and versions at once; tests list a few bodies, and no test runs Python beside the checker.", "anchors": ["crates/zuban_python/src/file/type_computation/class.rs:1322-1517", "crates/zuban_python/src/type_/enum_.rs:446-473", "crates/zuban_python/src/file/type_computation/enum_.rs:149-349"]}
{"id": "C73", "title": "The variance inferred for a type variable is one the class can be used with", "statement": "For a class whose type variables get their variance inferred, the variance follows from where the type variable stands in the types of the bases and members: it is covariant just when every use is one that gives out values (what can be assigned counts as taken in), contravariant just when the rest allows it and every use that is read takes values in, and invariant otherwise. If `A` is a subtype of `B` and the type variable is covariant, then the bases and members of `C[A]` can be used for those of `C[B]`, and every value that can be assigned for `C[B]` can be assigned for `C[A]`; for contravariance the other way round. A base class is reported for a declared variance just when it does not go with it. Inferring never panics.", "quantifier": "for all classes, bases, members and nested types of any depth (instances, functions, tuples, unions, Any), all tables of variances of other classes, all pairs of types in the subtype relation", "why_tests_cant": "The checker compares a type with the same type with object put in; whether that tells the variance for all nestings, kinds of members, recursive classes and unions cannot be listed by tests.", "anchors": ["crates/zuban_python/src/type_helpers/class.rs:1763-1977", "crates/zuban_python/src/type_helpers/class.rs:2238-2258", "crates/zuban_python/src/file/type_computation/class.rs:259-297", "crates/zuban_python/src/file/diagnostics.rs:3458-3490"]}
{"id": "C74", "title": "The quick fix that adds an import adds just this import, at a place where it works", "statement": "The edit of the quick fix for an unknown name gives a file with the same statements and exactly one more, the import. It stands before every statement that is not an import, after the docstring and after the imports from `__future__`, and when the imports are sorted by standard library, third party and project they still are. Where the name is added to an existing import with brackets, the targets are those before and the new name, with commas and brackets in place.", "quantifier": "for all files with any number of lines, comments, empty lines and several statements per line, all line ends, all kinds of imports, all modules and names, all lists of targets with any layout", "why_tests_cant": "The place is found by scanning back over blanks and comments and by a loop with remembered positions; whether that never lands inside a statement, a comment or before a future import depends on the layout of the whole file, of which tests have a few.", "anchors": ["crates/zuban_python/src/auto_imports.rs:247-362", "crates/parsa_python_cst/src/ranges.rs:54-106", "crates/parsa_python_cst/src/lib.rs:3238-3271"]}
{"id": "C75", "title": "The files that are checked are exactly those that the settings ask for", "statement": "Without paths on the command line, the checked files are exactly those of the checked workspaces that end in `.py` or `.pyi`, have no stub beside them, are not excluded and lie in no excluded directory, in no directory of another workspace, and are not ignored by a `.gitignore` on the way (if those count), neither themselves nor with a directory. It is an error if there are none. A path stands for its file or for the files below its directory, which are all that are checked there without the path; a path to nothing stands for the workspaces below it. Globs give all matches that are checked otherwise. Each path must stand for a file. Settings in the comments of a file do not take it out. Ignoring is what git does.", "quantifier": "for all trees of directories of any depth, all excludes, rules of gitignore files and globs (as arbitrary functions), all lists of workspaces and patterns", "why_tests_cant": "The walk keeps a stack of gitignores and checks excludes for each entry on the way down; that a file is chosen for exactly the right reasons in every tree, with several patterns at once, cannot be seen from some trees.", "anchors": ["crates/zuban_python/src/select_files.rs:19-318", "crates/vfs/src/tree.rs:132-139", "crates/vfs/src/tree.rs:192-201", "crates/vfs/src/tree.rs:516-526", "crates/vfs/src/tree.rs:669-671"]}
{"id": "C76", "title": "Signature help shows the parameter that Python binds the argument to", "statement": "The active parameter is the one that Python binds the argument under the cursor to: for a positional argument the parameter at this position or the `*args`, otherwise the first keyword-only one whose name begins with what is typed or the `**kwargs`; for a keyword argument the parameter with this name or the `**kwargs`, whatever stands before it; behind keyword arguments the first one not given yet, of those whose name begins with what is typed; without arguments the first. A signature fits iff there is such a parameter or nothing more is to be given; the active signature is the first that fits, and the active parameter the one of it. The label lists all parameters, and the ranges of the names in it, in bytes and in UTF-16 units, cut out exactly the names, in order and without overlap.", "quantifier": "for all lists of parameters in Python's order, all arguments before the cursor, all names and types in any script, all lists of overloads", "why_tests_cant": "The loop counts positions down while it skips names already used, in signatures of any shape; that the count and Python's binding agree for all combinations, and that offsets in UTF-16 are right for all texts, cannot be seen from some calls.", "anchors": ["crates/zuban_python/src/signatures.rs:111-289", "crates/zuban_python/src/signatures.rs:323-333", "crates/zubanls/src/request_handlers.rs:210-256"]}
{"id": "C77", "title": "Renaming changes exactly the names that mean the thing under the cursor", "statement": "To rename a name changes exactly the names of the project with the same text that mean the same thing, in all its files, each once, in one list of edits for each file; names of the same text that mean something else stay. Files are renamed exactly for the modules among the definitions, and a file keeps its directory and ending. The same name as the new one changes nothing; an error is returned iff the name leads nowhere and defines nothing. References without declarations are those with them but for these; those for one file are all in that file.", "quantifier": "for all projects, files, names, scopes and definitions, including stubs and several definitions, all new names", "why_tests_cant": "Which names are edited depends on all names of all files and where each of them leads; a wrong or missing edit in some project breaks the program of the user, and only some projects can be tried.", "anchors": ["crates/zuban_python/src/goto.rs:782-984", "crates/zuban_python/src/lib.rs:326-385", "crates/zuban_python/src/lib.rs:504-524", "crates/zuban_python/src/completion.rs:866-906"]}
{"id": "C78", "title": "The fixture found for a parameter is the one that pytest uses", "statement": "For a parameter of a test, goto, completion and inference find exactly the fixture that pytest passes: that of the module, else that of the conftest of the nearest directory, else that of a plugin, else that of pytest itself; none when there is none. A fixture that asks for its own name gets the one it overrides. Only parameters of tests and fixtures stand for fixtures, and what is found is a function with this name decorated as a fixture. The search ends for all projects. The type is what the fixture returns, or yields when it is a generator.", "quantifier": "for all directory trees, conftests, plugins, names and bindings, all places of the file in the tree", "why_tests_cant": "The answer depends on all conftests around a file and what their plugins define; the iterator keeps state between its steps, and only some trees can be tried.", "anchors": ["crates/zuban_python/src/pytest.rs:21-137", "crates/zuban_python/src/pytest.rs:168-333"]}
{"id": "C79", "title": "The fields of a named tuple that is made by a call are those that Python makes", "statement": "A call of collections.namedtuple is reported exactly when Python raises, and otherwise the fields, their order, their names after rename=True and which have a default are those of the class that Python makes. The fields always get different names, and the attribute with the name of a field has the type at its place in the tuple. typing.NamedTuple takes exactly the names that Python takes and keeps the types.", "quantifier": "for all names, strings, lists, numbers of defaults and arguments of the call", "why_tests_cant": "The names depend on all names in front, on keywords and classes of characters; tests try some lists of names and compare them with what was expected, not with Python.", "anchors": ["crates/zuban_python/src/file/type_computation/named_tuple.rs:36-103", "crates/zuban_python/src/file/type_computation/named_tuple.rs:140-225", "crates/zuban_python/src/file/type_computation/named_tuple.rs:290-431", "crates/zuban_python/src/file/type_computation/named_tuple.rs:446-509", "crates/zuban_python/src/type_/named_tuple.rs:68-101", "crates/zuban_python/src/type_/named_tuple.rs:172-324"]}
{"id": "C80", "title": "The ranges that can be folded are the blocks, and no two of them cross", "statement": "Folding gives a range for every block with lines of its own and for the cases of every match statement, and no others. A range starts at the line break behind the colon and ends with the last statement of the block, is never on one line only, and two ranges are apart or one is in the other. No file makes it panic. The range of the imports goes from the first import to the line break of the last one of those at the start of the file.", "quantifier": "for all trees of the grammar and all files with imports", "why_tests_cant": "The end of a block is found by going back over the leaves of the whole file; tests fold some files, and crossing ranges depend on how blocks end together.", "anchors": ["crates/parsa_python_cst/src/lib.rs:417-434", "crates/zuban_python/src/lib.rs:387-406", "crates/parsa_python_cst/src/ranges.rs:54-104"]}
{"id": "C81", "title": "A dataclass is hashable, and its order and frozen options are rejected, as Python does it", "statement": "Whether an object of a dataclass has a __hash__ is what the decorator makes of eq, frozen, unsafe_hash and the __hash__ and __eq__ in the body. An issue about frozen is added exactly when a base that is a dataclass has the other setting, and about order exactly when eq is off or the class defines one of the four methods; all of these are named.", "quantifier": "for all options, all classes and all lists of bases", "why_tests_cant": "The methods come from a table over four flags and the dictionary of the class, and from all the bases; tests show seven dataclasses without bases.", "anchors": ["crates/zuban_python/src/type_/dataclass.rs:1208-1270", "crates/zuban_python/src/type_/dataclass.rs:251-268", "crates/zuban_python/src/type_/dataclass.rs:512-526", "crates/zuban_python/src/file/type_computation/class.rs:2270-2292"]}
{"id": "C82", "title": "A name that the body of a dataclass binds is found before the one that is generated", "statement": "An attribute of a dataclass, on an object, on the class or for the call of the class, is that of the first class in the order of the bases whose dictionary has it; the dictionary of a dataclass has what the body binds, and the generated __init__, __match_args__, __slots__ and methods for the order only where the body does not bind them.", "quantifier": "for all options, all classes and all lists of bases and all names", "why_tests_cant": "There are four places that look up generated names, each with its own order of checks; tests have one dataclass that binds __match_args__ itself.", "anchors": ["crates/zuban_python/src/type_/dataclass.rs:947-1015", "crates/zuban_python/src/type_/dataclass.rs:1063-1128", "crates/zuban_python/src/type_/dataclass.rs:1138-1270"]}
{"id": "C83", "title": "The configuration is that of the nearest directory, and every file it depends on is reported as checked", "statement": "Without a file on the command line the options come from the nearest directory with a configuration: from the first of pyproject.toml, mypy.ini, .mypy.ini and setup.cfg that counts, with the table tool.zuban applied to them. The default options are used exactly if there is none. As long as the files that are reported as checked stay the same, the result stays the same.", "quantifier": "for all contents of all directories from the current one to the root", "why_tests_cant": "The four files and any number of directories combine; tests have single files, and that no other file matters is a statement about all changes.", "anchors": ["crates/config/src/searcher.rs:29-75", "crates/config/src/searcher.rs:108-198"]}
