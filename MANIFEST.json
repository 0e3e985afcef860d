{
 "claims": [
  {
   "property": "C01",
   "status": "proved",
   "theorems": [
    "C01_every_text_has_lines",
    "C01_offset_to_position",
    "C01_roundtrip"
   ],
   "note": ""
  },
  {
   "property": "C02",
   "status": "proved",
   "theorems": [
    "C02_positions_are_safe",
    "C02_positions_in_a_line_resolve",
    "C02_lines_beyond_the_end_are_refused"
   ],
   "note": ""
  },
  {
   "property": "C03",
   "status": "partial",
   "theorems": [
    "C03_end_of_line_accepted_partial",
    "C03_end_of_line_accepted_refuted",
    "C03_exact_failure_class"
   ],
   "note": "The statement is false of the code for UTF-16 lines with astral characters; the exact failure class is proved."
  },
  {
   "property": "C04",
   "status": "partial",
   "theorems": [
    "C04_sync_partial",
    "C04_session_partial",
    "C04_full_then_range_refuted",
    "C04_full_then_range_panics_refuted",
    "C04_failed_change_corrupts_index_refuted",
    "C04_astral_end_of_line_refuted"
   ],
   "note": "Proved for all change lists except the two refuted classes (ranged change after a full replacement on an indexed document; UTF-16 end-of-line positions on lines with astral characters)."
  },
  {
   "property": "C05",
   "status": "partial",
   "theorems": [
    "C05_read_back_partial",
    "C05_redirect_test",
    "C05_pending_entries",
    "C05_clear_finished_refuted",
    "C05_clear_flow_refuted",
    "C05_large_file_index_refuted",
    "C05_complex_index_checked"
   ],
   "note": "Proved for all histories of updates that do not take back a sticky flag; clearing the finished / flow flag is refuted (the code only ORs these bits)."
  },
  {
   "property": "C06",
   "status": "partial",
   "theorems": [
    "C06_canonical",
    "C06_idempotent",
    "C06_same_location",
    "C06_entry_point",
    "C06_root_refuted"
   ],
   "note": "Proved for NormalizedPath::normalize on all absolute Unix paths; at the entry point that strips a trailing separator the path \"/\" is refuted. Windows not modelled."
  },
  {
   "property": "C07",
   "status": "proved",
   "theorems": [
    "C07_relative_roundtrip",
    "C07_none_only_without_common_root"
   ],
   "note": ""
  },
  {
   "property": "C08",
   "status": "partial",
   "theorems": [
    "C08_decode_encode",
    "C08_document",
    "C08_length_partial",
    "C08_length_refuted"
   ],
   "note": "Encoding/decoding is proved in full; that a token length covers exactly the name in the negotiated encoding is refuted for non-ASCII names."
  },
  {
   "property": "C09",
   "status": "partial",
   "theorems": [
    "C09_exactly_one_response",
    "C09_nothing_skipped",
    "C09_prescribed_response",
    "C09_refused_after_shutdown",
    "C09_exit_ends",
    "C09_answer_all_sent_refuted"
   ],
   "note": "Every request taken from the client is answered exactly once with the prescribed response, for arbitrary handlers (errors, panics). Finding: a panic in the work between messages ends the process (C09_answer_all_sent_refuted). The status is partial because of it: requests that were sent and not yet taken are then not answered."
  },
  {
   "property": "C10",
   "status": "partial",
   "theorems": [
    "C10_open_document_partial",
    "C10_closed_document",
    "C10_disk_event",
    "C10_directory_becomes_file_refuted",
    "C10_document_for_directory_refuted",
    "C10_lost_document_refuted"
   ],
   "note": "Proved for all histories of editor and disk events; three panics/losses of the code around directories are exhibited."
  },
  {
   "property": "C11",
   "status": "partial",
   "theorems": [
    "C11_exactly_the_dependents",
    "C11_edit_partial",
    "C11_deleted_directory_refuted"
   ],
   "note": "The closure is exactly the reachable files; the edit theorem needs the tree entry to be the one of the file, which the refutation shows can fail after deleting a directory."
  },
  {
   "property": "C12",
   "status": "proved",
   "theorems": [
    "C12_precedence",
    "C12_deterministic",
    "C12_order_irrelevant",
    "C12_exact_untyped_refuted",
    "C12_stubs_first",
    "C12_search_path_before_own_directory"
   ],
   "note": "For all file trees without duplicate names and all lists of directories the result is the one of the specification, and the only one. With needs_exact_case this needs that no directory requires py.typed, which holds for both callers; without it the order of entries matters (refuted)."
  },
  {
   "property": "C13",
   "status": "partial",
   "theorems": [
    "C13_changed_result_is_registered_partial",
    "C13_event_reaches_partial",
    "C13_missing_registers",
    "C13_file_registers_partial",
    "C13_new_package_refuted",
    "C13_new_stub_refuted",
    "C13_marker_refuted",
    "C13_script_replaced_refuted"
   ],
   "note": "Proved: if one path changes and the result differs, the importer registered at that path or below (except for a package or a stub next to a found module file and the py.typed marker, all refuted), and registrations are honoured by the event handling of the file system after any history. Not proved: the link between both models (paths are names there and numbers here) and directories whose name ends in .py."
  },
  {
   "property": "C14",
   "status": "partial",
   "theorems": [
    "C14_like_python_partial",
    "C14_rejected_is_reported_partial",
    "C14_valid_class_not_reported",
    "C14_three_bases_refuted",
    "C14_rejected_not_reported_refuted"
   ],
   "note": "Whole programs: equality with Python's C3 (accepted, rejected and order) if every class has at most two bases or the computed order keeps the order of its bases. Valid classes are never reported, for any number of bases. False without the proviso: witnesses with three bases for a different order and for a rejected class that is not reported. Non-generic classes; tuples and disjoint bases left out."
  },
  {
   "property": "C15",
   "status": "partial",
   "theorems": [
    "C15_each_ancestor_once_partial",
    "C15_at_most_once",
    "C15_always_an_order",
    "C15_inconsistent_class_refuted"
   ],
   "note": "Exactly once if no class among it and its ancestors is reported; at most once, and nothing else, for every class. False for inconsistent classes: ancestors can be missing."
  },
  {
   "property": "C16",
   "status": "partial",
   "theorems": [
    "C16_sound",
    "C16_complete_partial",
    "C16_same_meaning_partial",
    "C16_apart_partial",
    "C16_shown_in_order",
    "C16_unknown_redundant_refuted",
    "C16_explicit_any_refuted",
    "C16_tuple_any_refuted"
   ],
   "note": "For any subtype relation and any answers of the type questions that are truthful about the values (the laws are the records truthful and well_ordered; a concrete world of types satisfies them). Values are never added and only those of types with unknown generics may be lost; plain members do not cover each other. With unknown generics redundant members remain, an explicit list[Any] can be lost, and tuples with Any of different lengths are merged (refuted)."
  },
  {
   "property": "C17",
   "status": "proved",
   "theorems": [
    "C17_nodes",
    "C17_parent",
    "C17_root",
    "C17_next_sibling",
    "C17_previous_sibling",
    "C17_children",
    "C17_previous_leaf",
    "C17_next_leaf",
    "C17_last_leaf",
    "C17_search"
   ],
   "note": "For all trees stored as the array of their nodes in preorder with next-sibling offsets (that the parser produces such arrays is C40)."
  },
  {
   "property": "C18",
   "status": "proved",
   "theorems": [
    "C18_leaf_by_position"
   ],
   "note": "For all trees whose leaves are placed in order without overlaps, and all positions; partition_point of the standard library is modelled by its specification."
  },
  {
   "property": "C19",
   "status": "proved",
   "theorems": [
    "C19_replays_exactly",
    "C19_rest_is_complete"
   ],
   "note": "For all token lists and all histories of next, start, reset, reset_to_last_leaf and stop that keep to the protocol of the parser (start only for the token just read, reset only to a mark since the last stop)."
  },
  {
   "property": "C20",
   "status": "partial",
   "theorems": [
    "C20_automaton_generated",
    "C20_derived_accepted",
    "C20_accepted_derived_partial",
    "C20_order_irrelevant",
    "C20_python_grammar_partial",
    "C20_optional_tail_refuted",
    "C20_optional_head_refuted"
   ],
   "note": "Everything a rule derives is accepted, for all rules without lookaheads. The converse holds if optional parts neither begin nor end with a repetition; otherwise it is refuted by computed witnesses. 133 of the 135 lookahead-free rules of the Python grammar meet the condition. Lookaheads and cuts are not modelled."
  },
  {
   "property": "C21",
   "status": "partial",
   "theorems": [
    "C21_terminates",
    "C21_balanced",
    "C21_ordered_partial",
    "C21_positions_partial",
    "C21_order_refuted",
    "C21_boundary_refuted",
    "C21_raw_refuted"
   ],
   "note": "For every text: the tokenizer stops, indents and dedents match, one end marker at the end of the text. Order, coverage and the text of each token for all texts without a line that begins with white space and a backslash before its end; for such lines order and even definedness are refuted. The texts of numbers, strings, bytes, operators and the starts of f-strings are those of the language reference (own description, with the two operators ! and ` of the code). The regex crate is represented by a backtracking matcher; is_alphabetic and is_numeric are arbitrary."
  },
  {
   "property": "C22",
   "status": "partial",
   "theorems": [
    "C22_section_matches_like_mypy",
    "C22_init_file_is_its_package",
    "C22_stub_package_module_refuted"
   ],
   "note": "Matching of dotted patterns is equal to mypy's regular expressions for all patterns and module names. Modules of stub packages other than __init__ are not found under the package name (refuted). The status is partial because of these modules."
  },
  {
   "property": "C23",
   "status": "partial",
   "theorems": [
    "C23_winning_section_partial",
    "C23_unmentioned_option",
    "C23_specific_pattern_wins_refuted",
    "C23_strict_section_refuted"
   ],
   "note": "Kind of pattern, then order in the file. Well structured patterns are not ordered by specificity (refuted), and a section with the key strict always fails (refuted)."
  },
  {
   "property": "C24",
   "status": "proved",
   "theorems": [
    "C24_negative_spelling",
    "C24_sets_only_its_flag",
    "C24_double_negation_unknown",
    "C24_bad_value_refused"
   ],
   "note": "Option names and values of the configuration; validity of exclude patterns is not modelled."
  },
  {
   "property": "C25",
   "status": "partial",
   "theorems": [
    "C25_explicit_mode_wins",
    "C25_configured_mode_wins",
    "C25_implicit_mode",
    "C25_automatic_mode_partial",
    "C25_bad_mode_reported",
    "C25_unrelated_setup_cfg_refuted",
    "C25_explicit_setup_cfg_refuted"
   ],
   "note": "The automatic choice is proved for projects without a setup.cfg that has no section for mypy; with one it is wrong (refuted)."
  },
  {
   "property": "C26",
   "status": "partial",
   "theorems": [
    "C26_switch_decides",
    "C26_redefinition",
    "C26_single_switches",
    "C26_last_switch_refuted"
   ],
   "note": "All boolean switches. The order of contradicting switches is ignored (refuted for the reading of mypy). The status is partial because of switches that contradict each other."
  },
  {
   "property": "C27",
   "status": "partial",
   "theorems": [
    "C27_value_partial",
    "C27_plain",
    "C27_no_panic_refuted",
    "C27_surrogate_refuted"
   ],
   "note": "The value of adjacent literals is the concatenation of the values of the language reference, for all literals with valid escapes, all prefixes and quotes, line ends included, as long as no value has a lone surrogate. Missing: \\N{...} (kept verbatim by the program) and f-strings. Refuted: lone surrogates are dropped; \\x before a multi-byte character panics."
  },
  {
   "property": "C28",
   "status": "partial",
   "theorems": [
    "C28_value_partial",
    "C28_no_panic_refuted",
    "C28_line_ends_refuted"
   ],
   "note": "All ASCII bytes literals without carriage returns, with valid escapes. Refuted: carriage returns are not normalised; b'\\x1' and b'\\x\\\\' panic."
  },
  {
   "property": "C29",
   "status": "partial",
   "theorems": [
    "C29_accepted_iff",
    "C29_level_of_license",
    "C29_altered_field_partial",
    "C29_level_kept",
    "C29_period_refuted"
   ],
   "note": "Acceptance characterised exactly (signature by one of the keys, now in the period); a level cannot be forged, and no single field can be altered. The last part of the statement is false: the fields are concatenated without separators, so the period can be altered together with the start (refuted for all licenses with present-day times). Ed25519 itself is abstract (unforgeability is a hypothesis)."
  },
  {
   "property": "C30",
   "status": "partial",
   "theorems": [
    "C30_suppressed",
    "C30_region",
    "C30_note",
    "C30_file",
    "C30_strings_refuted"
   ],
   "note": "Proved for texts with nothing that looks like a comment before the diagnostic on its first line (C30_suppressed), and in general for the text from the start of the diagnostic (C30_region). Lines are taken as text: comment-like text inside of a string literal counts, which is refuted as a property (C30_strings_refuted)."
  },
  {
   "property": "C31",
   "status": "partial",
   "theorems": [
    "C31_fix_works_partial",
    "C31_total",
    "C31_kinds",
    "C31_tab_refuted"
   ],
   "note": "Proved for lines without tabs and form feeds after the diagnostic and for codes as they are written; with a tab before a comment it is refuted (C31_tab_refuted). Assumes that a token starts at the position of the diagnostic and that between tokens there are only white space, comments and continuations. C31_kinds: which of the two edits are offered."
  },
  {
   "property": "C32",
   "status": "partial",
   "theorems": [
    "C32_common_indentation",
    "C32_idempotent",
    "C32_no_panic_partial",
    "C32_clean",
    "C32_no_panic_refuted",
    "C32_first_line_refuted"
   ],
   "note": "Proved for all texts for which there is a result; there is a result if the white space in front of lines is ASCII. Refuted: white space of several bytes can cause a panic; the first line (after the quotes) counts, so that usually nothing is removed from the other ones."
  },
  {
   "property": "C33",
   "status": "partial",
   "theorems": [
    "C33_cells_and_texts",
    "C33_parents_partial",
    "C33_parents_refuted",
    "C33_unknown_cell_reported"
   ],
   "note": "Cell order and texts proved for all histories of a client that synchronises the cells the server asks for (code cells, fresh URIs). The links between cells, through which names are looked up, are only right when no cell follows the replaced ones; otherwise the following cell is linked to itself (refuted)."
  },
  {
   "property": "C34",
   "status": "partial",
   "theorems": [
    "C34_selection_ranges_grow_partial",
    "C34_unexpected_indent_refuted",
    "C34_carriage_return_refuted"
   ],
   "note": "Proved for all trees in which each statement is separated from the start of its parent by a newline character (or the parent starts the file). False otherwise: unexpected indentation and carriage-return-only line ends give ranges that are not nested. Ranges are in bytes; the conversion to positions is C01-C03."
  },
  {
   "property": "C35",
   "status": "partial",
   "theorems": [
    "C35_exit_status",
    "C35_summary_partial",
    "C35_summary_refuted"
   ],
   "note": "The exit status is proved. The summary is right without notes; with notes the plural and the number of files with errors are wrong (refuted)."
  },
  {
   "property": "C36",
   "status": "proved",
   "theorems": [
    "C36_detects_cycles",
    "C36_no_report",
    "C36_terminates"
   ],
   "note": "For all chains, and for all evaluations over finitely many items that follow the pattern append, is_cycle, recurse."
  },
  {
   "property": "C37",
   "status": "partial",
   "theorems": [
    "C37_parse_rendered",
    "C37_monotone_partial",
    "C37_antitone_requirement",
    "C37_monotone_refuted"
   ],
   "note": "Monotone within a major version; refuted across major versions."
  },
  {
   "property": "C38",
   "status": "partial",
   "theorems": [
    "C38_form_partial",
    "C38_form_refuted"
   ],
   "note": "The property is false: the test is inverted. What holds is proved in C38_form_partial."
  },
  {
   "property": "C39",
   "status": "partial",
   "theorems": [
    "C39_option_read_partial",
    "C39_option_read_refuted"
   ],
   "note": "Holds when there is no white space around the value; the line written by Python's venv module is misread (refuted)."
  },
  {
   "property": "C40",
   "status": "partial",
   "theorems": [
    "C40_tree_partial",
    "C40_plain_tree",
    "C40_leaf_count_partial",
    "C40_ahead_refuted",
    "C40_omit_refuted",
    "C40_again_refuted"
   ],
   "note": "For all tables that meet tables_ok and all token sequences, with backtracking, reuse of nodes and error recovery: when the parser is done and no odd event (a ghost flag of the model) happened, the array is the preorder array of a tree in which every node covers its children, and its leaves are the tokens. For tables without conflicts and negative lookaheads there are no odd events. The statement for all tables is refuted by three witnesses: a token that a negative lookahead forbids is dropped, an omittable node is inserted twice after backtracking, and after reuse the following siblings are not linked. Not covered: termination and the panic when no rule does error recovery."
  },
  {
   "property": "C41",
   "status": "proved",
   "theorems": [
    "C41_expand_range"
   ],
   "note": ""
  },
  {
   "property": "C42",
   "status": "proved",
   "theorems": [
    "C42_numbers_with_lines"
   ],
   "note": ""
  },
  {
   "property": "C43",
   "status": "proved",
   "theorems": [
    "C43_invalidation"
   ],
   "note": ""
  },
  {
   "property": "C44",
   "status": "proved",
   "theorems": [
    "C44_backup"
   ],
   "note": ""
  },
  {
   "property": "C45",
   "status": "proved",
   "theorems": [
    "C45_containment"
   ],
   "note": ""
  },
  {
   "property": "C46",
   "status": "proved",
   "theorems": [
    "C46_split_first",
    "C46_split_last"
   ],
   "note": ""
  },
  {
   "property": "C47",
   "status": "partial",
   "theorems": [
    "C47_first_crash_reported_partial",
    "C47_every_crash_reported_refuted"
   ],
   "note": "Only the first crash is reported; the hook is taken out of its cell by the first panic, later crashes of notifications are silent (refuted)."
  },
  {
   "property": "C48",
   "status": "partial",
   "theorems": [
    "C48_equal_iff_same_partial",
    "C48_equivalence_partial",
    "C48_reflexive",
    "C48_tuple_length_refuted",
    "C48_not_transitive_refuted",
    "C48_callable_arity_refuted",
    "C48_named_tuple_refuted",
    "C48_unpack_refuted",
    "C48_type_guard_refuted",
    "C48_union_order_refuted"
   ],
   "note": "Exact for types in which all fixed tuples have one length, all callables one number of parameters, and without named tuples, unpacking tuples and TypeGuards; the statement is false without these restrictions (zip without a comparison of lengths), shown by the refutations. Recursive aliases are not modelled."
  },
  {
   "property": "C49",
   "status": "partial",
   "theorems": [
    "C49_complete",
    "C49_exact_partial",
    "C49_sound_partial",
    "C49_arguments",
    "C49_defaults",
    "C49_twice_refuted",
    "C49_overridden_refuted",
    "C49_open_sound_partial",
    "C49_open_possible_partial",
    "C49_open_complete_partial",
    "C49_open_ambiguous_refuted",
    "C49_open_collide_refuted",
    "C49_open_rejects_refuted",
    "C49_behind_partial",
    "C49_behind_dropped_refuted",
    "C49_behind_missing_refuted",
    "C49_second_refuted"
   ],
   "note": "No false error for any call of positional and keyword arguments; no missed error when the function has no **kwargs or no name is given twice (otherwise refuted: f(1, a=2) for def f(a, **kw)). Arguments and defaults reach the right parameters. Calls f(P, *xs, K, **kws): accepted exactly when some call they can turn into runs and all that run have the right types, if no keyword names a parameter that xs may fill and no parameter may be filled by both xs and kws (otherwise refuted). Arguments behind **kws: the same answer for functions without *args and **kwargs (otherwise refuted). Missing: ParamSpec, TypeVarTuple and TypedDict parameters; keyword arguments overridden by union math are refuted."
  },
  {
   "property": "C50",
   "status": "partial",
   "theorems": [
    "C50_sound_partial",
    "C50_ordinary",
    "C50_callable",
    "C50_reflexive",
    "C50_call_partial",
    "C50_default_refuted",
    "C50_passed_over_refuted",
    "C50_name_taken_refuted",
    "C50_trivial_suffix_refuted",
    "C50_order_refuted",
    "C50_star_refuted"
   ],
   "note": "Proved without conditions when the declared parameters are of the kinds a, a=1, *args, **kwargs (C50_ordinary) and, as an equivalence, for Callable[[..], R] (C50_callable); in general under three conditions that the code does not check, each of them shown necessary by a refutation. Not modelled: *args: *Ts, ParamSpec, **Unpack[TypedDict], type variables (the comparison of types is a parameter), ignore_positional_param_names (only in C50_reflexive)."
  },
  {
   "property": "C51",
   "status": "partial",
   "theorems": [
    "C51_plain",
    "C51_any",
    "C51_any_undecided",
    "C51_unhandled",
    "C51_reported",
    "C51_result",
    "C51_union",
    "C51_no_panic",
    "C51_message",
    "C51_sound_partial",
    "C51_members_partial",
    "C51_fallback_partial",
    "C51_pairs_refuted",
    "C51_tuple_refuted",
    "C51_tried_refuted",
    "C51_tried_partial",
    "C51_keyword_refuted",
    "C51_names_refuted",
    "C51_star_refuted",
    "C51_fallback_refuted"
   ],
   "note": "The choice of the variant, when an error is reported and which one, and the union of the results are proved for arbitrary variants and an arbitrary check of one variant. Safety for all values (C51_sound_partial) is proved with the binding of arguments of C49, for variants without type variables, under conditions that are each shown necessary by a refutation: no union by keyword, no tuple two of whose items are split into numbers of members with a common divisor, no *xs, no **kwargs with the name of a parameter (C49). Not modelled: recursive aliases, Flag enums (treated like other enums), deprecated variants, the cache of inferred expressions."
  },
  {
   "property": "C52",
   "status": "partial",
   "theorems": [
    "C52_lines_partial"
   ],
   "note": "Up to the first f-string of the text (inside of f-strings brackets are counted in a stack of nodes, which the statement does not describe) and for texts without a line that begins with white space and a continuation (see C21)."
  },
  {
   "property": "C53",
   "status": "partial",
   "theorems": [
    "C53_item",
    "C53_item_exists",
    "C53_item_reported",
    "C53_item_exact",
    "C53_slice_partial",
    "C53_slice",
    "C53_slice_fixed",
    "C53_slice_within",
    "C53_slice_zero",
    "C53_add",
    "C53_mul",
    "C53_parts",
    "C53_replaced_partial",
    "C53_start_refuted",
    "C53_stop_refuted",
    "C53_last_refuted",
    "C53_reversed_refuted",
    "C53_replaced_refuted"
   ],
   "note": "Types of items are arbitrary, with a sound union, object and avoid_implicit_literal (an exact union for C53_item_exact). Slices with a negative step of tuples with an unpack are wrong in four ways (refuted); all other slices are proved. Replacing a TypeVarTuple is wrong if items follow both inside and outside (refuted). Not modelled: machine words, the fallback to the methods of typeshed when tuple_add or tuple_mul answer nothing."
  },
  {
   "property": "C54",
   "status": "partial",
   "theorems": [
    "C54_sound_partial",
    "C54_same_partial",
    "C54_tuples_partial",
    "C54_decided",
    "C54_itself_partial",
    "C54_object",
    "C54_never",
    "C54_member_partial",
    "C54_members_partial",
    "C54_literal_string_refuted",
    "C54_dataclass_refuted",
    "C54_constraints_refuted",
    "C54_metaclass_refuted",
    "C54_tuple_length_refuted",
    "C54_tuple_invariance_refuted",
    "C54_newtype_refuted",
    "C54_members_refuted",
    "C54_type_var_tuple_refuted",
    "C54_enum_refuted",
    "C54_endless_refuted"
   ],
   "note": "Types: classes with arguments, dataclasses, literals, tuples, unions, intersections, enums, NewTypes, type variables that are not being inferred, type[...], None, Never. Missing: callables (C50), overloads, named tuples, TypedDicts, Self, ParamSpecs, recursive aliases; protocols are an assumption. The safety theorem leaves out exactly where it is refuted (LiteralString and metaclasses as expected types, covariant dataclasses, type[T] with constraints, tuples with *tuple[T, ...] that expect more items or have to be the same), Any, and empty unions. The theorems about rejection say that no number of steps gives a rejection; that the recursion ends is false in general (C54_endless_refuted)."
  },
  {
   "property": "C55",
   "status": "partial",
   "theorems": [
    "C55_unpack_sound",
    "C55_unpack_succeeds_partial",
    "C55_unpack_reports_partial",
    "C55_unpack_no_panic",
    "C55_unpack_panics",
    "C55_star_target_refuted",
    "C55_string_missed_refuted",
    "C55_string_reported_refuted",
    "C55_string_reported",
    "C55_string_literal_partial",
    "C55_iterable",
    "C55_iterable_world",
    "C55_not_iterable",
    "C55_loop_partial",
    "C55_loop_refuted",
    "C55_display_partial",
    "C55_display_no_panic",
    "C55_display_refuted",
    "C55_pattern_bindings_partial",
    "C55_pattern_truthy_partial",
    "C55_pattern_falsey_partial",
    "C55_sequence_bindings",
    "C55_sequence_truthy_partial",
    "C55_pattern_no_panic",
    "C55_pattern_unreachable_refuted",
    "C55_pattern_rest_refuted",
    "C55_pattern_before_refuted",
    "C55_pattern_after_refuted",
    "C55_pattern_first_refuted",
    "C55_sequence_rest_refuted",
    "C55_sequence_kept"
   ],
   "note": "Proved without restriction: C55_unpack_sound (names get values of their types, also where there are issues), C55_iterable and C55_not_iterable (which loops are reported), C55_string_reported, C55_display_no_panic, C55_pattern_no_panic, C55_sequence_bindings. Partial: C55_string_literal_partial is for ASCII literals and names; that unpacking succeeds or fails as reported only where tuples are unpacked (other iterables have no known length); loops and displays if no types behind a part of any length are lost (refuted otherwise); patterns if the patterns around a rest have items of their own (refuted otherwise), narrowing without a rest next to a part of any length (refuted otherwise). C55_unpack_no_panic is for types without unions in unions below a type variable; C55_unpack_panics has the panic. A class with a tuple among its bases is taken to be iterated like the tuple. Not modelled: targets that are attributes or subscripts, the deletion of literals, protocols of __iter__, the narrowing of unions member by member."
  },
  {
   "property": "C56",
   "status": "partial",
   "theorems": [
    "C56_sound_partial",
    "C56_checked_partial",
    "C56_branches",
    "C56_world",
    "C56_loop_body_refuted",
    "C56_after_loop_refuted",
    "C56_break_refuted",
    "C56_try_refuted",
    "C56_try_else_refuted",
    "C56_finally_refuted",
    "C56_walrus_and_refuted",
    "C56_walrus_falsy_refuted",
    "C56_walrus_or_refuted",
    "C56_any_refuted",
    "C56_attribute_refuted",
    "C56_any_attribute_refuted",
    "C56_del_refuted"
   ],
   "note": "Proved without further conditions for functions of assignments, deletions of parameters, if/elif/else, assert, return and raise in which names are tested and assigned (C56_branches). For all statements but finally under the conditions of FlowTame.v on the states of the analysis (C56_sound_partial), for names also as a computable test (C56_checked_partial). What goes wrong otherwise is shown by thirteen refutations: a loop body is analysed once with what is known before the loop, narrowing hides assignments at break, in try blocks and before else, finally only sees the normal end, assignments in operands of and and or are lost, assigning Any in a branch or below a parent object is forgotten, deleting globals. Not modelled: match statements, comprehensions, lambdas, parent unions, first definitions of names other than parameters, decisions of the name binder. What tests do to types and the operations on types are parameters with laws; the law that types without common subtype have no common value is an assumption about common_sub_type."
  },
  {
   "property": "C57",
   "status": "partial",
   "theorems": [
    "C57_exact_partial",
    "C57_exactly_partial",
    "C57_exact_world",
    "C57_branches_narrowed_refuted",
    "C57_assert_in_branch_refuted",
    "C57_dead_elif_refuted"
   ],
   "note": "Proved for functions of assignments of given types to names, if/elif/else, assert, return and raise where the conditions test one name (with tests that divide the values of a type) or are calls about which nothing is known, combined by and, or and not; branches either come to their end or leave the function, and assertions and returns are not nested in branches that may come to their end. Together with C56 the types shown have exactly the values found (C57_exactly_partial). Missing: deletion, loops, try, reading other names, truthiness of the name where it is not decided by its class. The three refutations show what goes wrong otherwise: what is only narrowed in all branches is forgotten after them, and an elif that cannot be reached is still looked at."
  },
  {
   "property": "C58",
   "status": "proved",
   "theorems": [
    "C58_accepted_by_rules",
    "C58_rules_not_rejected",
    "C58_answered",
    "C58_accepts",
    "C58_rejects",
    "C58_covariant",
    "C58_library",
    "C58_answered_refuted"
   ],
   "note": "Types without type variables, type[..], NewTypes, dataclasses, LiteralString, intersections and tuples with an unpack (for these see C54); programs without protocols and unknown base classes, where every class is at most once among the base classes of a class. The first two theorems need no more. That there always is an answer, and with that both equivalences, needs a depth of the classes (ranked_program), which exists if all type variables are covariant (C58_covariant); without it the recursion may not end (C58_answered_refuted, a finding). The additional comparison that finds the reason of a mismatch of lists and dicts is not modelled."
  },
  {
   "property": "C59",
   "status": "partial",
   "theorems": [
    "C59_sound",
    "C59_within",
    "C59_exact",
    "C59_equal",
    "C59_crashes",
    "C59_order",
    "C59_narrows",
    "C59_answered_refuted"
   ],
   "note": "Missing: that every comparison is answered is refuted, as the difference of two lengths is negative where the number is below the count of items next to an unpacked tuple[T, ...] (C59_crashes says exactly where; elsewhere all is proved). Types are sets of values as in C54."
  },
  {
   "property": "C60",
   "status": "partial",
   "theorems": [
    "C60_sound",
    "C60_is",
    "C60_covers",
    "C60_within",
    "C60_exhausted",
    "C60_left",
    "C60_in_tuple",
    "C60_in_tuple_within",
    "C60_in_container",
    "C60_type_of",
    "C60_bool_refuted",
    "C60_subclass_refuted",
    "C60_newtype_refuted",
    "C60_int_enum_refuted",
    "C60_float_refuted",
    "C60_object_refuted",
    "C60_custom_enum_refuted",
    "C60_both_none_refuted",
    "C60_protocol_refuted",
    "C60_int_is_member_refuted",
    "C60_bound_refuted",
    "C60_is_literal_refuted",
    "C60_flag_refuted",
    "C60_in_container_refuted",
    "C60_type_of_refuted"
   ],
   "note": "Missing: that the narrowed type has the value of x is refuted for equality of numbers of different classes (bool, float, subclasses and NewTypes of int, IntEnum), enums with their own __eq__, two optional sides, protocols and int with is, literals with is, flags with one member, containers of Hashable, and type(x) of literals, NewTypes and type variables; it is proved for the types whose parts compare as they seem to. That no value is lost or added and exhaustiveness are proved without this. Self, sentinels and TypedDicts are not modelled; what assignability, overlaps and joins answer is given with its laws."
  },
  {
   "property": "C61",
   "status": "partial",
   "theorems": [
    "C61_sound",
    "C61_within",
    "C61_exact",
    "C61_or",
    "C61_and",
    "C61_operands",
    "C61_operands_exact",
    "C61_int_refuted",
    "C61_len_refuted"
   ],
   "note": "Missing: that the type has the value is refuted for an int, str or bytes that is false but of a subclass (False for int: C61_int_refuted), and for a class whose length is known where a subclass adds __bool__ (C61_len_refuted); it is proved for all other types, and for these where no such subclass exists. TypedDicts, Self and partial containers are not modelled; what methods return and the union of types are given with their laws."
  },
  {
   "property": "C62",
   "status": "partial",
   "theorems": [
    "C62_true",
    "C62_true_single",
    "C62_true_exact",
    "C62_false",
    "C62_false_plain",
    "C62_false_within",
    "C62_false_exact",
    "C62_forgotten_refuted",
    "C62_both_refuted",
    "C62_float_refuted",
    "C62_float_or_refuted",
    "C62_complex_refuted",
    "C62_subclass_refuted",
    "C62_added_int_refuted",
    "C62_added_float_refuted"
   ],
   "note": "Missing: that the type has the value is refuted where a type variable makes the code forget what it found, where one part of a union matches and a common subclass of another part exists, and for numbers with several classes, type variables, complex in a union and type[float]; int and float are added where they were not possible. It is proved under conditions that exclude these, without conditions for one class and a type that is not a union (true) and for types without float and complex (false). TypedDicts and issues are not modelled; the relations between types are given with laws that a concrete world is shown to satisfy."
  },
  {
   "property": "C63",
   "status": "partial",
   "theorems": [
    "C63_init",
    "C63_default",
    "C63_complete",
    "C63_match_args",
    "C63_post_init",
    "C63_replace",
    "C63_slots",
    "C63_marker",
    "C63_frozen",
    "C63_init_false_refuted",
    "C63_class_var_refuted",
    "C63_init_true_refuted",
    "C63_kw_only_refuted",
    "C63_kw_only_default_refuted",
    "C63_positional_refuted",
    "C63_bare_refuted",
    "C63_diamond_refuted",
    "C63_post_init_twice_refuted",
    "C63_post_init_field_refuted",
    "C63_post_init_order_refuted",
    "C63_replace_frozen_refuted",
    "C63_slots_refuted"
   ],
   "note": "Proved for all programs, by induction along the bases, where names that are written again keep their role, an annotation without a value does not hide a default of a base and classes that are no dataclasses pass on the fields of the one after them. Where a role changes, every parameter of Python is there but order and extra parameters may be wrong (refuted). __post_init__ needs InitVars that are positional and written once, replace a class that is not frozen, __slots__ a class without bases, InitVars and init=False; the rest is refuted. The marker and frozen checks need no condition. Not modelled: type variables, descriptors, converters, dataclass_transform, unknown bases."
  },
  {
   "property": "C64",
   "status": "partial",
   "theorems": [
    "C64_sound",
    "C64_if_reached",
    "C64_if_only",
    "C64_decided",
    "C64_no_crash",
    "C64_turned_refuted",
    "C64_turned_index_refuted",
    "C64_equal_refuted",
    "C64_greater_refuted",
    "C64_slice_end_refuted",
    "C64_crash_refuted",
    "C64_one_operand"
   ],
   "note": "Proved for all conditions, versions and runs where the version is on the left of < or >= or has as many entries as the tuple, and == and != on either side. With the version on the right the operator is not turned around, the other operators ignore that the version is longer, and the end of a slice is ignored (refuted); a huge slice start crashes (refuted, and the only crash). Names are taken to mean what they usually mean: a program that assigns PY3 or sys itself is not described by the settings. Asserts are not modelled."
  },
  {
   "property": "C65",
   "status": "partial",
   "theorems": [
    "C65_scope",
    "C65_builtins",
    "C65_used_too_early",
    "C65_reported",
    "C65_generator_walrus_refuted",
    "C65_function_before_generator_refuted",
    "C65_generator_in_class_refuted",
    "C65_bound_after_return_refuted",
    "C65_bound_after_loop_refuted",
    "C65_nonlocal_in_class_refuted",
    "C65_comprehension_in_loop_refuted"
   ],
   "note": "Proved for all files without walruses in generators, code after return, nonlocal in class bodies, names of a class that are used before it binds them or in the first iterable of a generator, and names used in a loop and first bound after it. In these cases but the use in a class before the binding it is refuted. Reported is also the first iterable of a comprehension in a loop. Annotations, type parameters, type aliases, star imports, del and syntax errors are not modelled."
  },
  {
   "property": "C66",
   "status": "partial",
   "theorems": [
    "C66_assign",
    "C66_reject",
    "C66_literal",
    "C66_call",
    "C66_dict",
    "C66_read",
    "C66_run",
    "C66_setdefault",
    "C66_update",
    "C66_join",
    "C66_meet",
    "C66_in",
    "C66_extra_read_only_refuted",
    "C66_extra_member_refuted",
    "C66_closed_refuted",
    "C66_join_refuted",
    "C66_join_extra_refuted",
    "C66_meet_extra_refuted",
    "C66_setdefault_refuted",
    "C66_update_refuted",
    "C66_unpack_refuted",
    "C66_final_refuted",
    "C66_other_key_refuted",
    "C66_missing_object_refuted",
    "C66_missing_closed_refuted",
    "C66_required_extra_refuted"
   ],
   "note": "Proved for TypedDicts without generics and types without Any, under the conditions `asked` (extra items that may be changed are compared with items that may be changed; a closed TypedDict has all the names) and one definition per place; without them it is refuted. Not modelled: recursive TypedDicts, type variables, inheritance of TypedDicts, the class syntax."
  },
  {
   "property": "C67",
   "status": "partial",
   "theorems": [
    "C67_merge",
    "C67_merge_all",
    "C67_call",
    "C67_any",
    "C67_kind",
    "C67_accepts",
    "C67_least",
    "C67_greatest",
    "C67_order",
    "C67_bound_refuted",
    "C67_constraints_refuted",
    "C67_union_refuted",
    "C67_kind_refuted",
    "C67_literal_refuted",
    "C67_literals_refuted"
   ],
   "note": "Proved over types for which assignability is a preorder, common bases are least and common subtypes are greatest (an instance with generic classes of each variance is given). Acceptance, least and greatest types and the order are proved for unrestricted type variables without unions in the parameters and without classes in contravariant positions. Refuted: a declared bound is also asked of values that bound from above; the first constraint is taken; unions of type variables; a value outside of the declared bound is kept; implicit literals. Not modelled: Any, the context of the result, TypeVarTuple and ParamSpec, type variables in the arguments."
  },
  {
   "property": "C68",
   "status": "partial",
   "theorems": [
    "C68_tables",
    "C68_python",
    "C68_accepted",
    "C68_rejected",
    "C68_arithmetic",
    "C68_ordering",
    "C68_any",
    "C68_subclass",
    "C68_reverse",
    "C68_augmented",
    "C68_augmented_mixed",
    "C68_in",
    "C68_in_never",
    "C68_in_rejected",
    "C68_arithmetic_refuted",
    "C68_ordering_same_refuted",
    "C68_ordering_refuted",
    "C68_subclass_refuted",
    "C68_overlap_refuted",
    "C68_multiple_refuted",
    "C68_augmented_refuted",
    "C68_augmented_reject_refuted",
    "C68_in_refuted"
   ],
   "note": "Verdicts are proved in full for direct instances. The type of the result is proved unless the class of the right operand shares a reverse method with the left one, and refuted otherwise; orderings have two further exceptions. For subclasses the cases are proved in which the left method is taken, and in which the right one is taken for unrelated classes where the left method covers part of the right operand. Overloads, literals, percent formatting and unions of classes by | are left out."
  },
  {
   "property": "C69",
   "status": "partial",
   "theorems": [
    "C69_alike_partial",
    "C69_unpacked_partial",
    "C69_comparison_partial",
    "C69_exact_partial",
    "C69_symmetric_partial",
    "C69_unreported_partial",
    "C69_exempt",
    "C69_literals",
    "C69_containers",
    "C69_empty_refuted",
    "C69_none_refuted",
    "C69_sequence_refuted",
    "C69_unpacked_refuted",
    "C69_constraints_refuted",
    "C69_dataclass_refuted",
    "C69_literal_refuted",
    "C69_symmetric_refuted",
    "C69_two_bases_refuted",
    "C69_contravariant_refuted",
    "C69_answered_refuted"
   ],
   "note": "Proved for types without type variables, type[...], callables and TypedDicts in programs without protocols, and for values related by the laws of [alike]. Refuted for empty containers, None, a tuple against Sequence, two tuples with unpacks, constrained type variables, dataclasses, common subclasses, contravariant arguments; symmetry is refuted for type[...], exactness for literals; the recursion need not end."
  },
  {
   "property": "C70",
   "status": "partial",
   "theorems": [
    "C70_listed_partial",
    "C70_reported_partial",
    "C70_exactly_partial",
    "C70_direct_partial",
    "C70_itself",
    "C70_child_partial",
    "C70_grandchild_refuted",
    "C70_late_refuted",
    "C70_qualified_refuted",
    "C70_setter_refuted",
    "C70_declared_refuted",
    "C70_dataclass_refuted",
    "C70_dataclass_mixin_refuted",
    "C70_redefined_refuted"
   ],
   "note": "Soundness is proved for programs accepted by Python (C14) whose classes have the metaclass ABCMeta and are no dataclasses or protocols, bind names once and use decorators by their own names; the exact description holds for all programs Python accepts. Refuted: completeness (grandchildren, implementations in later bases, qualified decorators, setters, declarations, dataclass bases) and soundness for dataclass mixins and redefinitions. Calls through type[C] and C[...] and incomplete hierarchies are left out."
  },
  {
   "property": "C71",
   "status": "partial",
   "theorems": [
    "C71_join_partial",
    "C71_join_tuples_partial",
    "C71_display_partial",
    "C71_union_partial",
    "C71_first_partial",
    "C71_promotion_partial",
    "C71_shape_partial",
    "C71_literals_partial",
    "C71_meet_partial",
    "C71_meet_tuples_partial",
    "C71_meet_any",
    "C71_meet_exact_partial",
    "C71_order_refuted",
    "C71_symmetric_refuted",
    "C71_meet_refuted",
    "C71_endless_refuted",
    "C71_literal_string_partial",
    "C71_join_any",
    "C71_join_enum"
   ],
   "note": "Proved for types without Any, LiteralString and constrained type variables, tuples with an unpack only at the top; the simplified union is a parameter that has to contain both types (C16). Callables, named tuples, TypedDicts and recursive aliases are not modelled. Refuted: independence of the order of the items, symmetry, exact meets of unions, and an end of the recursion."
  },
  {
   "property": "C72",
   "status": "partial",
   "theorems": [
    "C72_names",
    "C72_members_partial",
    "C72_distinct_partial",
    "C72_closed_partial",
    "C72_reused_partial",
    "C72_slices",
    "C72_call_partial",
    "C72_underscores_refuted",
    "C72_nested_refuted",
    "C72_alias_refuted",
    "C72_descriptor_refuted",
    "C72_declared_refuted",
    "C72_equal_values_refuted",
    "C72_ignored_refuted",
    "C72_reused_refuted",
    "C72_before_refuted",
    "C72_private_refuted",
    "C72_call_refuted"
   ],
   "note": "The statements about bodies are proved for bodies without control flow that keep clear of the refuted cases (predicate `tame`): names in one of the usual forms, calls of staticmethod and the like only from 3.11 on, no undecorated classes from 3.13 on, aliases of ordinary values, functions and classes only, no other expressions that give descriptors, no declaration before an assignment, no `_ignore_`. The statement about strings needs blanks and commas as the only separators. Flags, `__new__` and the values of members are not modelled."
  },
  {
   "property": "C73",
   "status": "partial",
   "theorems": [
    "C73_total",
    "C73_check_partial",
    "C73_names",
    "C73_signs_partial",
    "C73_covariant_partial",
    "C73_contravariant_partial",
    "C73_class_partial",
    "C73_base_partial",
    "C73_union_refuted",
    "C73_writable_refuted",
    "C73_setter_refuted",
    "C73_return_refuted",
    "C73_self_refuted",
    "C73_cycle_refuted"
   ],
   "note": "Proved for classes that keep clear of the refuted cases: no member of a union with the type variable is absorbed by another one, setters have the type of their property, methods that return the own class do so with the same type arguments, contravariant classes have no writable member with the type variable, and the class does not use itself elsewhere. The types of members are given; overloads, TypedDicts, narrowed attributes and bounds of type variables are not modelled."
  },
  {
   "property": "C74",
   "status": "partial",
   "theorems": [
    "C74_insert_partial",
    "C74_after_partial",
    "C74_sorted_partial",
    "C74_brackets",
    "C74_star_refuted",
    "C74_inside_refuted",
    "C74_return_refuted",
    "C74_future_refuted"
   ],
   "note": "Proved for files with a statement where no statement after an import on the same line has a newline in it and lines with imports do not end with a lone carriage return; docstring and future imports have lines of their own; sorted imports with at most one import per line. The other cases are refuted. The files and kinds of the imports are given; the search for names and the choice of the existing import are not modelled."
  },
  {
   "property": "C75",
   "status": "partial",
   "theorems": [
    "C75_workspaces",
    "C75_directory",
    "C75_missing",
    "C75_below",
    "C75_globs_partial",
    "C75_patterns",
    "C75_flags",
    "C75_git_partial",
    "C75_git_refuted",
    "C75_parent_refuted",
    "C75_glob_refuted",
    "C75_nested_refuted",
    "C75_flags_refuted"
   ],
   "note": "Git is followed only without negated rules. A given directory does not see the gitignores above it, globs go through ignored directories and other workspaces, and comments with settings take out given files without a Python ending; these are refuted. Regular expressions, globs and gitignore rules are functions; what a path leads to is given."
  },
  {
   "property": "C76",
   "status": "partial",
   "theorems": [
    "C76_positional",
    "C76_first",
    "C76_keyword",
    "C76_after_keywords_partial",
    "C76_label",
    "C76_ranges",
    "C76_ranges_apart",
    "C76_active",
    "C76_any",
    "C76_positional_only_refuted",
    "C76_prefix_refuted",
    "C76_empty_refuted",
    "C76_star",
    "C76_star_star_partial",
    "C76_star_fits",
    "C76_missing",
    "C76_star_star_refuted",
    "C76_boundary",
    "C76_utf8",
    "C76_utf16"
   ],
   "note": "Behind keyword arguments, only without positional-only parameters, and in `**x` only as the first argument; what is typed counts only for keyword-only parameters; the cases with the others and the call without parameters are refuted. The arguments before the cursor and the texts of the types are given."
  },
  {
   "property": "C77",
   "status": "partial",
   "theorems": [
    "C77_renames_partial",
    "C77_once",
    "C77_same",
    "C77_unknown",
    "C77_only_definition",
    "C77_declarations",
    "C77_file",
    "C77_uri_partial",
    "C77_package_refuted",
    "C77_union_refuted",
    "C77_attribute_refuted",
    "C77_module_refuted",
    "C77_dependency_refuted"
   ],
   "note": "When goto is right, each name leads to definitions of one thing in the project, what is defined in functions is used in one file, and no definition starts where a module does; without these it is refuted. URIs only for modules that are not packages; for these it is refuted. Where goto leads is given."
  },
  {
   "property": "C78",
   "status": "partial",
   "theorems": [
    "C78_test_partial",
    "C78_override_partial",
    "C78_ends",
    "C78_nothing",
    "C78_sound",
    "C78_type_partial",
    "C78_class_refuted",
    "C78_given_refuted",
    "C78_alias_refuted",
    "C78_plugins_refuted",
    "C78_outer_refuted",
    "C78_string_refuted",
    "C78_own_plugins_refuted",
    "C78_builtin_refuted",
    "C78_requested_refuted",
    "C78_nested_refuted",
    "C78_type_refuted"
   ],
   "note": "Without fixtures of classes and those with a name given in the decorator, when at most one plugin gives the name and no conftest further outside does, plugins are given as a sequence and the module of pytest is one of the five looked at; without these it is refuted. What names are bound to, imports and return types are given."
  },
  {
   "property": "C79",
   "status": "partial",
   "theorems": [
    "C79_call_partial",
    "C79_words_partial",
    "C79_slices",
    "C79_element",
    "C79_distinct",
    "C79_attribute",
    "C79_typing_attribute",
    "C79_attribute_sound",
    "C79_replace",
    "C79_typing_partial",
    "C79_typing_elements",
    "C79_soft_refuted",
    "C79_typename_refuted",
    "C79_white_refuted",
    "C79_numeric_refuted",
    "C79_arguments_refuted",
    "C79_triple_refuted"
   ],
   "note": "The iff with Python is for names without match, case and type whose characters have the same classes in Rust and Python, strings with blanks and commas only, a name of the class that Python takes, and no further arguments than rename and defaults; without these it is refuted. Escapes in strings and the types of fields are given. Which issue is reported for an element of the list of fields that is too short is not stated by a theorem (see seeded/LOG.jsonl)."
  },
  {
   "property": "C80",
   "status": "partial",
   "theorems": [
    "C80_total",
    "C80_exact",
    "C80_lines",
    "C80_nested",
    "C80_imports",
    "C80_comment_refuted"
   ],
   "note": "The start of the range of the imports is refuted: it is the start of the file. The trees of the grammar are given as far as blocks are concerned; the conversion of bytes to lines is another property."
  },
  {
   "property": "C81",
   "status": "partial",
   "theorems": [
    "C81_hash_partial",
    "C81_plain_partial",
    "C81_unhashable",
    "C81_one_hash",
    "C81_subclass_refuted",
    "C81_eq_refuted",
    "C81_frozen_hash_refuted",
    "C81_unsafe_refuted",
    "C81_frozen",
    "C81_order",
    "C81_options"
   ],
   "note": "The hash is proved for bases whose dictionaries have what their bodies bind; the cases that are left out are refuted: classes below a dataclass that is not hashable, __eq__ without __hash__, a frozen dataclass below a class with __hash__ = None, and unsafe_hash with __hash__. The order of the bases is given, and the lookup of an instance is reduced to the first class that binds the name."
  },
  {
   "property": "C82",
   "status": "partial",
   "theorems": [
    "C82_instance_partial",
    "C82_constructor_partial",
    "C82_own",
    "C82_type_partial",
    "C82_inherited_refuted",
    "C82_type_init_refuted",
    "C82_type_match_args_refuted"
   ],
   "note": "Proved where no base binds what it would generate. Refuted for such bases, and on the class itself for __init__ and for __match_args__ in the body. The order of the bases is given; names that are bound on self and __dataclass_fields__ are not modelled."
  },
  {
   "property": "C83",
   "status": "partial",
   "theorems": [
    "C83_nearest",
    "C83_none",
    "C83_configures_partial",
    "C83_empty_refuted",
    "C83_watched"
   ],
   "note": "A pyproject.toml without tool.mypy and tool.zuban ends the search as well, so that it hides a configuration above (refuted). Files are modelled by whether they have something for mypy and zuban; errors in files are not modelled, and the mode is another property."
  }
 ]
}
