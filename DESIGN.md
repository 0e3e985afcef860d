# Formal model of zuban – design and trusted base

The code in `/repo` (Rust, pinned commit) is read as text.  Nothing of it is compiled or run.
Everything below is a hand-written Gallina model of selected functions plus Rocq (Coq 8.16.1)
proofs about the model.

## Layout

* `rocq/theories/<Area>Model.v` – the model: total computable functions; each definition
  carries a comment with the file and lines of `/repo` it models and what was simplified.
* `rocq/theories/<Area>Spec.v` (or a `Spec` section at the top of the property file) – the independent
  specification used in the statements; never mentions helpers of the model.
* `rocq/theories/<Area>Proofs.v` – lemmas.
* `rocq/theories/<Area>Props.v` – the property theorems (`exact lemma`), concrete `Example`s that meet
  their hypotheses, and `Print Assumptions`.

Naming: `Cnn_…` theorem for property Cnn; suffix `_partial` if only part of the English
statement is proved, `_refuted` if the faithful model violates the statement (a witness is computed; these
are findings about the code).

## Trusted base

* Coq's kernel (8.16.1), `vm_compute` conversion for concrete examples.
* Axioms: see the section "Assumptions" at the end (output of `Print Assumptions`).
* The faithfulness of the hand translation from Rust to Gallina (see the comments in the model).
* Modelling conventions: `usize`/`u32` values are unbounded `nat`/`N`/`Z` unless a property is about wrap
  around; a panic is an explicit error value; `&mut` parameters become returned values;
  external calls (file system, regular expressions, subtype checks, signature check) are function
  parameters of the model; multi-threading and interior mutability are sequentialised.

## Properties: what is modelled and how it is proved

| id | what is modelled | method |
|----|------------------|--------|
| C01–C03 | `lines.rs`: text = list of Unicode scalar values, newline index, all conversions | round-trip lemma by induction over the text; boundary safety by case analysis; C03 is refuted for UTF-16 (the bounds check counts characters instead of code units), the exact failure class is proved |
| C04 | `apply_document_changes` with its cached newline index | refinement to a splice specification by induction over the change list; a full change followed by a ranged change is refuted |
| C05 | `Point` as bit-packed `N`; constructors, getters, setters | bitwise (`N.testbit`) reasoning |
| C06, C07, C45, C46 | path components, `normalize`, `path_relative_to`, containment, item splitting | structural induction on component lists |
| C08 | `SemanticTokensBuilder` + independent decoder | induction over token list |
| C09, C47 | server main loop as state machine with arbitrary handler outcome | invariant over message histories |
| C10, C11 | VFS state: entries, in-memory map, invalidation work list | invariants over operation histories; graph closure for invalidation |
| C12, C13 | directory contents + resolution with recorded missing entries | case analysis; C13 partly refuted |
| C14, C15 | `linearize_mro_and_return_linearizable` + separate textbook C3 | simulation between the two merges; two refutations |
| C16 | `merge_simplified_union_type` over abstract types with the answers of the type questions as parameters | loop invariant under two records of laws; a concrete world of types shows the laws can be met |
| C17, C18 | flat preorder array + navigation, rose tree as specification | induction over trees |
| C19 | `BacktrackingTokenizer` as a state machine against an abstract cursor | refinement |
| C20 | rule → NFA → DFA | Thompson + subset construction correctness; the rules of the Python grammar are transcribed and checked |
| C21 | `tokenizer.rs`: the regular expressions (with a backtracking matcher that is sound and complete for their languages), white space, indentation, f-strings, brackets; `is_alphabetic`, `is_numeric` arbitrary | a step lemma for `next`, a potential that decreases with every token, an invariant on the position; order refuted for lines that begin with white space and a continuation; the unit tests of the file are run in the model; the texts that the expressions match are shown to be literals of the language reference (`TokenizerLiterals.v`) |
| C52 | as C21; a specification of logical lines (`lines`) that counts brackets from the tokens | the step lemma of C21 carries what a token does to brackets and line starts; up to the first f-string |
| C22, C23 | override pattern matching and ordering; spec = regular-language semantics | equivalence by induction |
| C24–C26 | option inversion, mode choice, command line application | case analysis over strings / flags |
| C27, C28 | literal evaluation loops; spec = relation following the Python reference | induction, refutations for malformed escapes |
| C29 | `verify_with_keys`, `to_bytes_message`, abstract signature scheme | direct; malleability refuted |
| C30, C31 | ignore comment scanner and quick fix | induction over text |
| C32 | `dedent_cow` | induction over lines |
| C33 | notebook cell list state machine | invariant / refutation |
| C34 | selection range iterator over tree ancestors | induction over ancestors |
| C35 | error count, exit status, summary | direct |
| C36 | linked-list guard | induction, termination by pigeonhole |
| C37 | `PythonVersion` | order reasoning, decimal printing round-trip |
| C38 | `run_goto_like` choice | refuted |
| C39 | `pyvenv.cfg` line scan | refuted |
| C40 | the parser engine `grammar.rs` (plans, alternatives, reuse, error recovery) over arbitrary tables; ghost flags remember what can leave the array in disorder | the stack describes an unfinished tree in the array (`desc`); every step keeps this; induction over runs; the full statement is refuted |
| C41, C42 | `lines.rs`: expansion to whole lines, numbered lines | induction over lines |
| C43, C44 | the cache of points: invalidation, backups | pointwise reasoning on arrays |
| C48 | `is_equal_type_internal` on a mutual inductive of types | mutual induction; `same` is an independent inductive relation |
| C49 | `InferrableParamIterator` function by function, `match_arguments_against_params`; types and their check arbitrary | simulation by a recursive relation on the parameters, which is proved equivalent to the language reference; who gets what by replacing types and values with marks; for `*xs` and `**kws` a second simulation, whose relation is that of the call in which both give as much as they can |
| C50 | `matches_simple_params` with its loops; types and their comparison arbitrary | induction over the declared parameters for all calls at once, with the parameter by parameter view of C49; keyword-only parameters with the multiset of those passed over |
| C51 | `overload.rs` function by function over an arbitrary check of one variant; `maybe_union_like_with_materializations`, `merge_matching_parts`; then the same with `match_arguments` of C49 | invariant of the loop over the variants; induction over the arguments for the members (with the vector that is changed in place); the order of the combinations of a tuple by remainders (Chinese remainder theorem); values by transport of C49 |
| C53 | `Tuple::get_item` with `run_on_int_literals` and `callback_on_tuple_indexes`, `tuple_add_internal`, `tuple_mul_internal`, `add_before_and_after`, `MaybeUnpackGatherer`; types of items arbitrary | slices by the item at each position (linear arithmetic on bounds); a slice of a prefix or suffix is one of the whole; the specification of slices is Python's, on lists of values |
| C54 | `Type::matches_internal`, `is_super_type_of`, `is_same_type`, `check_other_side`, `check_promotion`, `union_is_super_type_of`, `matches_class`, `matches_class_against_type`, the tuple functions, `Match`; the recursion with a number of steps, questions and answers | types are sets of values (`SubtypeSpec.v`), the declarations of the program are laws about them; induction over the steps with one lemma per function; the other direction by induction over the type |
| C55 | `IteratorContent` with its cursors, `iter` of types, `assign_targets`, `assign_tuple_target`, `TupleGatherer`, `infer_tuple_iterator`, `assign_tup_for_sequence_patterns`; unions, joins and the items of classes are parameters with laws | Python's rules for targets, displays and patterns as relations between lists of values (`UnpackSpec.v`); an invariant that says which values an iterator has still to give, by induction over the targets; patterns with one invariant per position relative to the rest |
| C56 | `FlowAnalysis` with its frames, entries, merging (`merge_conditional`, `merge_or`, `merge_and`, `merge_frames_for_index`), `narrow_or_widen_target`, `delete_name`, guards of conditions, and the walk over statements in `diagnostics.rs`; types, tests and their operations are parameters with laws | executions of statements as a relation, with exceptions anywhere (`FlowSpec.v`); conditions on the states of the analysis (`FlowTame.v`, as a test in `FlowCheck.v`); one invariant that says which values the frames allow, kept by each merge, then induction over the execution; the laws hold in a concrete world (`FlowWorld.v`), where the refutations and examples are computed |
| C57 | the same model as C56, without loops and `try` | executions as in C56; `guarded`, `ending`, `leaving` on the code, exact laws of types, `elifs` on the states where `elif` comes after a condition that cannot fail; induction over statements with what is seen of one name (`sees` in a stack of frames) and how `merge_conditional`, `merge_or` and `merge_and` change it (`FlowExact.v`): for every value seen at the end there is a value at the start from which every store has an execution |
| C58 | the same model as C54 | the rules as a mutual inductive relation (`SubtypeRules.v`), taken from the typing specification; what is accepted follows from them by induction over the steps; what follows from them is not rejected by induction over the derivation, for all parts of a union at once; the recursion ends by induction over the depth (nesting in arguments that are not covariant) of both types together, and within one depth over the types (`SubtypeDecides.v`) |
| C59 | `narrow_len`, `narrow_len_for_tuples`, `matches_fixed_len_tuple_len`, `LenNarrowing`, the comparison operators of `find_guards_in_comparisons` for `len(x)`; `Type::union`, `retain_in_union`, `sort_for_priority`, equality of types | values as in C54, a length for each (`NarrowSpec.v`); one lemma for each form of tuple with all operators, what unions have by induction over their members (`NarrowProofs.v`, `NarrowLen.v`); a test and its inversion are compared in integers |
| C60 | `narrow_is_or_eq`, `split_off_singleton`, `split_off_enum_member`, `maybe_split_bool_from_literal`, `guard_of_in_operator`, `merge_or` and `merge_and` of one frame entry, `removed_optional`, `check_for_comparison_guard` for `type(x)` | values as in C54 and any relation as the test (`NarrowIsSpec.v`); one round of each loop is a sum of what it adds to the sides, so soundness is shown part by part (`NarrowIs.v`); for exhaustiveness the values that are left after a comparison are computed (`NarrowExhausts.v`); refutations in values of Python with the real `run` of C54 |
| C61 | `split_truthy_and_falsey_t`, `split_truthy_and_falsey`, `TruthyInferred` (`as_cow_type`, `combine`), the types in `check_conjunction` and `check_disjunction` | `bool(v)` from `__bool__` and `__len__` of the value (`NarrowTruthSpec.v`), what classes declare as conditions; induction over the unions of a type and over the operands (`NarrowTruth.v`) |
| C62 | `split_and_intersect`, `intersect`, `replace_promoted` (without TypedDicts and issues) | `isinstance(v, C)` as a test on values, the relations of types with laws (`NarrowInstanceSpec.v`); induction over the parts and the classes, the true type grows, the other side is a fold over what is kept (`NarrowInstance.v`) |
| C63 | `calculate_init_of_dataclass` with `add_param`, `calculate_field_arg`, `field_options_from_args`, `dunder_match_args_tuple`, `slots_as_lookup_result`, `dataclasses_replace`, `lookup_on_dataclass` for names of parameters (no type variables, descriptors, converters, dataclass_transform) | the dictionary of fields that CPython 3.12 builds, as the solution of an equation over all classes (`DataclassSpec.v`); positional and keyword-only parameters are two dictionaries that do not touch each other if roles are kept, and updates of a filtered dictionary are filtered updates (`Dataclass.v`); strong induction over the classes |
| C64 | `is_expr_part_reachable_for_name_binder`, `check_comparison_reachability`, `python_version_matches_tuple`, `python_version_matches_slice`, `maybe_sys_platform_startswith`, `Truthiness` with its operators and which blocks `index_if_stmt` indexes (a crash is an own result) | an evaluator of Python expressions with exceptions, where all other names and objects may behave in any way, and what it means that a run has the configured version and platform (`VersionCheckSpec.v`); induction over conditions, tuples are compared entry by entry (`VersionCheck.v`) |
| C65 | `NameBinder` as symbol tables and nodes to resolve later: `add_new_definition_with_cause`, `add_new_walrus_definition`, `maybe_add_reference`, `index_unordered_references`, `lookup_nonlocal_in_parents`, `with_nested`, `close` and the indexing of functions, lambdas, classes, comprehensions, generators, loops, match statements, global and nonlocal statements and of what comes after a return; not annotations, type parameters, type aliases, star imports, del and syntax errors | the scoping rules of Python over the tree of scopes; invariant of the binder (table, waiting names, nodes with the uses they stand for) by a nested induction over the items; the same for what is reported; seven cases in which it is wrong are computed (partial) |
| C66 | `TypedDict` with members and extra items over abstract types (`super`, `same`, `never`, unions): `find_entry`, `is_super_type_of`, the shortcut in `matches_internal`, `can_be_emptied`, `can_be_overwritten_with`, `__setitem__`, `__delitem__`, `get`, `pop`, `setdefault`, `update`, `clear`, `popitem`, calls and dict displays, `dict` and `Mapping` as targets, `intersection`/`union` (join and meet) and narrowing by `in`. Spec: a dict is a map; a contract is what others rely on; a TypedDict models a contract if its dicts conform and what it allows keeps the contract. Types are assumed to be answered rightly (`right_types`; an instance with five values is given) | Proved: an accepted TypedDict models every contract the other one models; what is safe is accepted but for three kinds of cases; whatever a program does through accepted views and operations, the dict conforms to all views and the contract holds; displays and calls conform; reads have the inferred type; joins, meets, `in`. Refuted parts: see the findings |
| C67 | Over abstract types (assignability, sameness, equality, common base, common subtype): `Bound`, `merge`, `merge_or_mismatch`, `update_lower_bound`, `update_upper_bound`, `match_or_add_type_var` with declared bounds and `check_constraints`, `into_generic_item`; parameters made of type variables, classes with variances (`matches_class`, the MRO of the value where it is covariant) and unions (`Match::any`, `Match::all`); the arguments of a call in turn. Spec: types for the type variables, put into the parameters, make every argument assignable. Assumed: the order is a preorder, common bases are least and found, common subtypes greatest and found, classes follow their variances (`order`, `joins`, `complete_joins`, `classes`, `complete_classes`; SolveInstance.v has types with all of this). Not modelled: `Any`, the context of the result, `TypeVarTuple`, `ParamSpec`, type variables in arguments, protocols, promotion, the MRO of a class with type variables in a contravariant position | Proved: accepted calls are right for the inferred types; calls that can be right are accepted; least, otherwise greatest types; no dependence on the order; declared bounds and constraints. Refuted parts: see the findings |
| C68 | Worlds of classes with method resolution orders and methods of one parameter: the tables of magic names (`as_operation`, `magic_methods`, the orderings, the two tables of the diagnostics), `infer_detailed_operation` with its three strategies and its loops over unions, `sort_for_priority` as far as Any is concerned, `cache_aug_assign` with `type_lookup_and_execute_with_details`, `infer_in_operator`, `check_overlapping_op_methods`, `check_inplace_methods`. Spec: attributes by the first class of the order, the dispatch of CPython for arithmetic and orderings as a relation, in-place assignment. Assumed: linear orders (what C3 gives), methods that keep to their signatures and answer NotImplemented to other arguments. Left out: overloads, literals (C64), `%` on strings, `X \| Y` on classes, the type after an error. | Proved: the tables; verdicts for direct instances of the classes, unions included; the types of results where the order of the operands is right; subclasses if the left method is taken, or the right one for unrelated classes, and the definitions pass their checks; augmented assignments; `in`. Refuted parts: see the findings |
| C69 | `types overlap`: `overlaps_internal` on classes, tuples (with unpacks), unions, intersections, literals, enums, `None`, `Any`, `Never`, `type[...]`, bounded type variables, with `overlaps_class`, the tuple cases and the fallback to assignability (the model of C54), and `is_strict_equality_comparison` on top of it. A number of steps stands for the recursion. Spec: values of types (C54) and a relation of values that may be equal, with laws (equal values have related classes, equal items, equal arguments; empty containers are left out). Left out: callables, TypedDicts, `Self`, protocols; what the allowlist and the classes with `__eq__` are is given. | Proved for the types of C58: types with values that may be equal are never found disjoint, what is not reported has a value in common (no arguments, no literals), unions of literals overlap just if they share one, containers are compared by their items, None and own `__eq__` are exempt, comparisons of such values are never reported (None aside), the same for a tuple with an unpack against one without; the order of the types does not matter; without arguments and literals, types that overlap share a value. Refuted parts: see the findings |
| C70 | The abstract attributes of a class: the names marked while binding (`abstractmethod` as the text of a decorator), the members of protocols, the order with its direct bases, `calculate_abstract_attributes` and the report for `C()`. Spec: class namespaces as Python builds them by running the body, and ABCMeta's own algorithm on them. | Soundness against ABCMeta by induction on the hierarchy (the orders are those of C14), an exact description of the listed names in terms of bodies and ancestors, and which entries are direct bases. Completeness fails in several ways (findings). Metaclass ABCMeta is assumed for all classes; `type[C]`, `C[int]()` and incomplete hierarchies are left out. |
| C71 | `common_base_type_internal` with its closure, `common_base_class_basic`, promotions, tuples with unpacks, `common_sub_type`, `union`, `gather_types`, and the items of list and set displays, on the types of C54 with its assignability. Spec: types as sets of values (C54). | Upper and lower bounds by induction on the number of steps, with the soundness of C54 for invariant arguments and for meets and the MRO lemmas of C54; which type it is by following the MROs. Parameters: `==` of types and the simplified union. The order, symmetry, exact meets of unions and an end of the recursion are refuted. |
| C72 | `enum_members`, `maybe_valid_enum_member_assignment`, the lookup of members and aliases, `split_enum_members` and `add_member`, on bodies of statements without control flow. Spec: `_EnumDict.__setitem__`, name mangling and `EnumType` of CPython's `enum.py` as a small interpreter, with the first name of a value as its member. | One induction over the body with an invariant that ties what is found to Python's namespace and member names; names by their underscores; words of a string by a relation with one solution. The other cases are refuted. |
| C73 | `infer_variance_for_index`, `check_type_var_variance_validity_for_type`, `erase_return_self_type`, `infer_variance_of_type_params`, `inferred_variance` and `check_type_var_variance_for_base`, over assignability of instances, functions, tuples and unions. Spec: signs of the uses of a type variable, and declarative subtyping with transitivity and inheritance. | Assignability to the type with object is shown to tell the signs (induction over types); the loops then compute the signs of all uses; uses with one sign follow subtypes. Tables that agree outside the class give the same variance. The other cases are refuted. |
| C74 | `initial_imports_end_code_index`, `position_for_import`, `create_import_code_action` and the edit of `add_name` for existing imports, over the text of files. Spec: what lines, empty lines and separators are, the statements of a file, names in brackets. | The loop is characterised by a split of the imports; the end of the first imports by a split of the lines. Each place is then the start of a line, a place between empty lines or the start of a statement, and the new file is given with its lines. Statements over several lines after an import, lone carriage returns, future imports that share a line and `*` are refuted. |
| C75 | `FileSelector`: `search_in_workspaces`, `handle_entries`, `handle_entry`, `ignored_by_gitignore`, `ignore_py_if_overwritten_by_pyi`, the walk for globs and the filter of `find_files`. Spec: the directories on the way to a file, what excludes and rules say of each of them, git's rule that the last rules decide. | The walk is shown to make the checks of each step on the way (induction over trees), and those checks to be the ones of the specification (induction over the way). Patterns by induction over their list. Negated rules, gitignores above a path, globs and single flags are refuted. |
| C76 | `CallSignatures::into_iterator` (`calc_current_param` and the labels), `utf16_code_units_name_range`, the choice in `handle_signature_help`. Spec: the order of parameters in Python, which parameter a positional or keyword argument is bound to, which are still free, the label as a list with separators. | The loop is shown to stop at the first parameter with a property that depends only on the count before it (induction over the parameters); with the order of the parameters, this is the one of the specification. Labels by induction over the parameters, with the text before each name. Positional-only parameters behind keywords, prefixes and empty signatures are refuted. |
| C77 | `ReferencesResolver::references` with its closures, `find_references_in_file`, `find_references_in_workspace_entries`, `references_for_rename`, `FileRename::to_uri`, the part of `ScopesIterator` for reachable scopes. Spec: the thing that each name means, when goto is right about it (`right`), the names that are edited. | Only the first name that goto leads to counts (induction over the results); the names found are characterised as lists with filters, the grouping by an invariant over the changes. With `right`, that a name leads to one of the definitions is the same as to mean the same thing. Unions, attributes defined in methods, modules at the first byte, dependencies and the URIs of packages are refuted. |
| C78 | `find_pytest_fixture_for_param` with `FixtureModuleIterator::next` as a state machine, `conftest_pytest_plugins`, `is_fixture`, `is_pytest_fixture_or_test`, the type in `maybe_infer_pytest_param`. Spec: the list of fixtures in pytest with its order of registration, where those of plugins are put before those with a location, and the last one used. | Each step of the iterator takes the first of a list of files (`next_spec`), so the search is the first file of the list that gives the name; pytest's list is a stable partition of the registrations, and its last element the first of the reversed lists. Under `clear` both are the same. Eleven differences are refuted. |
| C79 | `check_named_tuple_name`, `new_collections_named_tuple` with its loops, `add_named_tuple_param`, `is_identifier`, `compute_named_tuple_initializer`; `params`, `search_param`, `as_tuple` and `lookup_internal` of a named tuple. Spec: what Lib/collections does: the words of a string, the names with and without `rename`, the defaults of the last fields. | The model compares a name with the final names, Python with the given ones: the invariant `made` relates both. `distinct` is an invariant of the list of parameters for all names and gives the lookup of attributes. Six differences are refuted. |
| C80 | `folding_blocks` over all nodes with the loop over previous leaves of the whole file, `folding_ranges` with the range of the imports (the end of the first imports is that of C74). Spec: foldable trees, the last leaf that is no dedent, ranges that are apart or nested. | Induction over the tree: the entries are those of foldable subtrees (`folds_sound`, `folds_complete`), the loop over dedents stops inside of the node; order of the leaves gives nesting. The start of the imports is refuted. |
| C81 | The `__hash__` branch of `lookup_on_dataclass` with the lookup through the bases, the frozen check in the loop over the bases, the check of order methods, the end of `check_dataclass_options`. Spec: the table of `dataclasses.py` as rules for the dictionary of a class, the first class that has an entry, and when the decorator raises. | The dictionary is unique (`in_dict_fun`), lookup over bases that keep their entries is that of Python (`kept_lookup`), then cases of the options. Four kinds of classes are refuted. |
| C82 | `lookup_symbol_internal`, `lookup_dataclass_symbol`, `lookup_on_dataclass`, `lookup_on_dataclass_type` and the choice in `dataclass_initialize`, for names that are generated. Spec: the dictionary of a class and the first class that has the name. | The lookups are reduced to one over dictionaries (`instance_first`, `type_instance`), which is the spec (`first_exact`). Three cases are refuted. |
| C83 | `find_config` without a file on the command line, `find_mypy_config_file_in_dir` with the paths given to `on_check_path`. Spec: the files that count, their order, the nearest directory, what is right for a directory. | Induction over the directories (`config_some`, `config_none`); two lists of directories that agree on the checked files have the same search (`config_same`). A pyproject.toml without tables is refuted. |

The status of each claim, with what is missing, is in `MANIFEST.json`.

## What of the code is modelled

Modelled function by function (the comments give lines): `crates/utils` (panic hook, `VecRefWrapper`-like parts are not),
`zuban_python`: `lines.rs`, `lsp_utils.rs`, `semantic_tokens.rs`, `point` bits of `database.rs`, `inference_state.rs` guard,
`selection_ranges.rs`, `code_actions.rs` (parts), module resolution of `file/imports.rs` and `imports.rs`, `sys_path.rs` (pyvenv),
`type_/union.rs`, `type_/mod.rs` (parts used by the union code), `type_helpers/typing.rs` (`is_equal_type_internal`),
`type_helpers/class.rs` (linearization), `params.rs` (the iterator that binds arguments) with the acceptance of a call in
`matching/matcher/utils.rs` and the comparison of parameter lists (`matches_simple_params`), `type_helpers/overload.rs` (choice of the variant, members of unions), `type_/matching.rs` with `match_.rs` (assignability, without inference of type variables), `matching/mod.rs` (`IteratorContent`) with the assignment to targets and tuple displays of `file/inference.rs` and `file/utils.rs` and the sequence patterns of `file/flow_analysis.rs`, the frames of `file/flow_analysis.rs` (without `match`, comprehensions and what tests do to types) with the statements of `file/diagnostics.rs`, `type_/tuple.rs` with `inferred.rs` (`run_on_int_literals`) and `getitem.rs` (tuples), `utils.rs` (dedent, debug), the narrowing by
tests of `file/flow_analysis.rs`, `type_/dataclass.rs`, `type_/typed_dict.rs`, `file/name_binder.rs` (C64, C65, C70), `matching/matcher/bound.rs` with parts of
`type_var_matcher.rs` (C67), the binary operators of `file/inference.rs` (C68), `type_/overlaps.rs` (C69), the abstract attributes of
`file/type_computation/class.rs` (C70), `type_/common_base_type.rs` and `type_/common_sub_type.rs` (C71), `type_/enum_.rs` and `file/type_computation/enum_.rs` (C72), the variances of `type_helpers/class.rs` and `file/diagnostics.rs` (C73), the edits of `auto_imports.rs` (C74), the choice of files in `select_files.rs` (C75), the signatures of `signatures.rs` (C76), references and renaming in `goto.rs` (C77), the search for fixtures in `pytest.rs` (C78), named tuples made by a call (C79), folding ranges (C80), the hash, order and frozen checks of dataclasses (C81), where names of dataclasses come from (C82), the search for a configuration (C83);
`vfs`: paths, tree, workspaces, handler; `zubanls`: server loop, global state notifications, notebooks, request handlers (goto choice);
`config`: option parsing, overrides, finder; `zmypy`, `cli_args`: application of flags, exit status, summary;
`licensing`: messages and verification; `parsa`: `grammar.rs`, `backtracking.rs`, `automaton.rs` (NFA/DFA construction), tree storage in `lib.rs`;
`parsa_python`: `tokenizer.rs`, the lookahead-free rules of the grammar; `parsa_python_cst`: `strings.rs`, `bytes.rs`, ignore comments
of `lib.rs` and `code_actions.rs`.

Not modelled: type inference as a whole (protocols, type variable matching beyond C67), the type formatter,
diagnostics texts, completion, the LSP wire format, threads, Windows paths, real file systems, the internals of regular
expressions, Ed25519, and the hashing of the standard library (iteration order of hash maps is an arbitrary permutation where it matters).

## Assumptions

Every theorem in the property files is followed by `Print Assumptions`; all of them print `Closed under the global context`.  No axiom is
declared, nothing is admitted.  (The axioms of `Coq.ssr.ssrunder` that a check of all loaded libraries reports come with the tactics of the
standard library; no theorem depends on them.)  What the theorems assume about the parameters of the model is in their statements: the
answers of the type questions (C16: `truthful`, `well_ordered`), unforgeability (C29), the handlers (C09, arbitrary), the protocol of the
parser (C19), a client that keeps to LSP (C33), unions, common subtypes and tests of types (C56 and C57: `laws` and `exact_laws`, which hold in `FlowWorld.v`), what
a program declares (C54: `proper`, C58: `ordinary_program` and `ranked_program`, which hold in the programs of their property files).

## Findings

Behaviour of the code that contradicts the property, each with a computed witness in Coq (`…_refuted`):

* C03, C04: the check against the end of a line counts characters instead of UTF-16 units; a position at the end of a line with astral
  characters is refused.  A ranged change after a full change in one notification uses the old newline index; a failed change leaves a wrong index.
* C05: two flags of a point cannot be taken back; a file index of 2^23 or more is not refused and overwrites other bits.
* C06: `/` is normalised to the empty path.
* C08: token lengths are in bytes.
* C09, C47: a panic outside of a handler ends the process; the panic hook only works for the first panic.
* C10, C11: a directory with an open document that is replaced by a file, or a document whose path is a directory: panic; deleting a
  directory that holds an open document and a file that resets the database loses the document; a stale tree entry after the deletion of a directory.
* C12, C13: exact-case lookup depends on the order of entries if `py.typed` is needed; packages or stubs created next to a found module are
  not noticed, nor are `py.typed` markers and packages that replace a suffix-less script.
* C14, C15: with three bases the order can differ from C3 and an invalid class can go unreported; an inconsistent class misses ancestors.
* C16: unknown generics leave redundant members; an explicit `list[Any]` is lost next to `list[?]` depending on the order; `tuple[Any] | tuple[Any, Any]` becomes `tuple[Any]`.
* C20: optional parts that begin or end with a repetition accept too much (`param_patterns`, `star_etc`, `lambda_star_etc`).
* C21: when a line with smaller indentation begins with white space and a continuation, the tokenizer steps back into the text after it: words of a comment become
  tokens and the order is lost, or a `str` is made that begins inside a character (undefined behaviour).  `rf'\N'` is not ended if `{name}` occurs anywhere later.
* C22: modules of stub packages are not matched.  C23: patterns are not ordered by specificity; `strict` in a section always fails.
* C25: an unrelated `setup.cfg` switches the mode.  C26: the order of contradicting switches is ignored.
* C27, C28: `'\xé'` panics, lone surrogates are dropped, `\N{…}` is kept; `b'\x1'` and `b'\x\\'` panic, carriage returns stay in bytes.
* C29: the fields of a license are signed without separators.
* C30, C31: comment-like text in a string literal suppresses diagnostics (and is edited by the quick fix); with a tab before an existing
  comment the quick fix does not help.
* C32: white space of several bytes panics; the first line counts.
* C33: a replaced cell links the following cell to itself.
* C34: unexpected indentation, or carriage returns as line ends, give ranges that are not nested.
* C35: the plural follows all issues instead of errors; files with only notes count as files with errors.
* C37: not monotone across major versions.  C38: the test for location links is inverted.  C39: the value in `pyvenv.cfg` is not trimmed.
* C40: a token that a negative lookahead forbids is in no leaf (`if 1 := 2:` loses `:=`); a node that may be omitted is in the array twice when there is a
  conflict behind its first child (`*a.b, c = x`); reuse of a node does not reset `latest_child_node_index`, so that later children are unreachable
  (`match x:` with `case a:` at the end of the file).
* C48: fixed tuples, callables and named tuples are compared without comparing lengths; not transitive; `TypeGuard` callables are not equal to themselves.
* C49: `f(1, a=2)` is accepted for `def f(a, **kw)`.  A keyword argument that is a union loses its name when overloads are tried with its members
  (`ArgKind::Overridden`): it is rejected for a keyword-only parameter, or bound by position.
* C49: `f(*ints, **strings)` is accepted for `def f(a: int)`, `f(*ints, a="")` for `def f(a: int, **kw: str)`; `f(*ints, b=1)` is rejected for
  `def f(a: int, b: int)`.  Looking for arguments of `*args` or `**kwargs` forgets `**kws` when a keyword argument follows it:
  `f(**strings, a=1)` is accepted for `def f(**kw: int)` and `f(**kws, a=1)` is rejected for `def f(*args, a, b)`.  Of `f(**a, **b)` only `a` is checked
  (the source says so).
* C50: the default of a keyword-only parameter is compared with that of the next parameter instead of that of the same name (`def f(*args, a)` is accepted
  for `(*, a=...)`; `def f(*, a, b=0)` is refused for `(*, b=..., a)`); a keyword parameter that was passed over is not compared if there is `**kwargs`;
  a parameter in the place of a positional-only one may have the name of a keyword; `(*args: int, **kwargs: Any)` counts as `...`;
  `def f(a=0, *args)` is refused for `(*args)`.
* C53: slices of tuples with an unpack and a negative step: `t[1::-1]` of `tuple[int, *tuple[str, ...]]` is inferred as `tuple[int]`
  (`C53_start_refuted`), `t[:0:-1]` keeps the first item (`C53_stop_refuted`), `t[-1::-1]` drops the last (`C53_last_refuted`), and `t[::-1]` of
  `tuple[*Ts]` is `tuple[*Ts]` (`C53_reversed_refuted`).  With `tuple[*tuple[str, ...], int]` in the place of `Ts`, `tuple[int, *Ts, bytes]`
  becomes `tuple[int, *tuple[str, ...], bytes, int]` (`C53_replaced_refuted`).
* C54: wrongly accepted: `list[LiteralString]` for `list[Literal["a"]]` (`C54_literal_string_refuted`), `list[Box[object]]` for `list[Box[int]]` with a
  covariant dataclass (`C54_dataclass_refuted`), any class for `type[T]` with constraints (`C54_constraints_refuted`), `list[Meta]` for `list[type[C]]`
  (`C54_metaclass_refuted`), `tuple[int, int, *tuple[str, ...]]` for `tuple[int, *tuple[str, ...]]` (`C54_tuple_length_refuted`),
  `list[tuple[int, *tuple[int, ...]]]` for `list[tuple[int, int]]` (`C54_tuple_invariance_refuted`).  Wrongly rejected: `type[N]` of a NewType for itself
  (`C54_newtype_refuted`), `int | str | None` for `T | None` with `T: (int, str)` although it accepts both members (`C54_members_refuted`), the union of all
  members of an enum for the enum (`C54_enum_refuted`), `tuple[object, ...]` for `tuple[*Ts]` (`C54_type_var_tuple_refuted`).
  With a contravariant `class N(Generic[Z])` and `class C(N["N[C]"])`, matching `x: N[C] = C()` never ends (`C54_endless_refuted`): only protocols and
  recursive aliases are guarded against recursion.  C58 has the same (`C58_answered_refuted`) and a condition on class hierarchies that excludes it.
* C55: a loop over `tuple[int, *tuple[str, ...], bytes]` has `int | str` (`C55_loop_refuted`: `infer_all` goes over `before` twice), and so has `(*t, *t)`
  (`C55_display_refuted`).  `a, b, *c = t` is reported for it though it never fails (`C55_star_target_refuted`).  The length of a string literal is counted in
  bytes: `a, b = "ä"` is not reported (`C55_string_missed_refuted`), `(a,) = "ä"` is (`C55_string_reported_refuted`).  Unpacking a type variable whose bound is a
  union with an alias of a union reaches `unreachable!()` (`C55_unpack_panics`).  Sequence patterns next to a part of any length: `case (a, b, *c)` for
  `tuple[int, *tuple[str, ...]]` makes the rest unreachable (`C55_pattern_unreachable_refuted`), `case (a, *rest)` narrows it to `tuple[int, int, *tuple[str, ...]]`
  (`C55_pattern_rest_refuted`), names get types of other items (`C55_pattern_before_refuted`, `C55_pattern_after_refuted`, `C55_pattern_first_refuted`).
  `case [int(), *rest]` narrows `Sequence[int | str]` to `Sequence[int]` (`C55_sequence_rest_refuted`).
* C56 (flow analysis; each with a program and an execution that contradicts what is shown): the body of a loop is analysed once, with what is known before the
  first iteration (`C56_loop_body_refuted`), so code after a loop may count as unreachable and is not checked (`C56_after_loop_refuted`); at `break`, what was narrowed after an
  assignment in the loop counts as not assigned (`C56_break_refuted`); in `try` blocks a narrowed type counts as what is possible in the handlers
  (`C56_try_refuted`), assignments of the block are lost with `else` (`C56_try_else_refuted`), `finally` is analysed as after the normal end
  (`C56_finally_refuted`); assignment expressions are lost in operands of `and` and `or` (`C56_walrus_and_refuted`, `C56_walrus_or_refuted`) or if the value is false
  (`C56_walrus_falsy_refuted`); assigning something of type Any in a branch is forgotten (`C56_any_refuted`) and does not end what is known about attributes
  (`C56_any_attribute_refuted`), nor does any assignment in a branch (`C56_attribute_refuted`); a deleted global counts as never having a value
  (`C56_del_refuted`).
* C57 (types shown that are wider than needed): what every branch narrows without assigning is forgotten after the branches (`C57_branches_narrowed_refuted`,
  `C57_assert_in_branch_refuted`); the condition and the block of an `elif` are looked at even if the conditions before cannot fail, unlike the block of `else`
  (`C57_dead_elif_refuted`).
* C59: `len(x) >= 1` or `len(x) < 1` for `x: tuple[int, str, *tuple[int, ...]]` (any ordering operator and a number below the count of fixed items) subtracts the
  larger length from the smaller one: a panic, or without overflow checks a list of about 2^64 items (`C59_answered_refuted`, `C59_crashes`).
* C60: after `x == 1` code is said to be unreachable for `x: bool`, for a subclass or NewType of int and for a member of an IntEnum; `x: float` and `x: object` become
  `Literal[1]` though they may be 1.0; `x: E` with `__eq__` in the enum E itself is narrowed, though for a member or a class the method is looked at
  (`C60_bool_refuted`, `C60_subclass_refuted`, `C60_newtype_refuted`, `C60_int_enum_refuted`, `C60_float_refuted`, `C60_object_refuted`, `C60_custom_enum_refuted`).
* C60: `x == y` and `x is y` remove None from `x` even if `y` may be None (`C60_both_none_refuted`); `x in xs` does if the items are not a union with None but,
  say, `Hashable` (`C60_in_container_refuted`).
* C60: `x is None` is unreachable for `x: Hashable`, `x is Number.ONE` for `x: int` with an IntEnum, `x is Color.RED` for a type variable bound to Color
  (`C60_protocol_refuted`, `C60_int_is_member_refuted`, `C60_bound_refuted`); `x is 1` takes identity for equality (`C60_is_literal_refuted`); a flag with one member is taken
  to have one value (`C60_flag_refuted`); `type(x) is int` is unreachable for `x: Literal[1]`, a NewType of int and a type variable (`C60_type_of_refuted`).
* C61: `not x` makes `x: int` a `Literal[0]` though it may be False or of a subclass (`C61_int_refuted`; Mypy does the same), and a class whose `__len__` returns `Literal[1]`
  or a named tuple is always true, though a subclass may add `__bool__` (`C61_len_refuted`).
* C62: `isinstance(x, str)` for `x: str | T` leaves `<subclass of T and str>` only, a plain str is lost (`C62_forgotten_refuted`); `isinstance(x, C)` for `x: A | Sub` with
  `class Sub(C)` leaves `Sub`, though there may be a `class D(A, C)` (`C62_both_refuted`; for `x: A` alone it is thought of).
* C62, numbers in the branch where `isinstance` is false: `x: float` with `isinstance(x, (float, str))` is unreachable though 3 gets there (`C62_float_refuted`), ints are lost for
  `x: float | T` (`C62_float_or_refuted`), floats for `x: complex | str` with `isinstance(x, complex)` (`C62_complex_refuted`), `int` for `x: type[float]` with
  `issubclass(x, float)` (`C62_subclass_refuted`).  `x: str` or `x: MyFloat` become `str | int` and `int` after `not isinstance(x, float)`
  (`C62_added_int_refuted`), and `x: complex` after `isinstance(x, float)` and `isinstance(x, int)` are false has floats again (`C62_added_float_refuted`).
* C64: `(3, 8) <= sys.version_info` is decided as `sys.version_info <= (3, 8)`, so the wrong branch is dropped (`C64_turned_refuted`, `C64_turned_index_refuted`); `==`, `!=`, `>` and `<=` ignore that
  `sys.version_info` has more entries than the tuple (`C64_equal_refuted`, `C64_greater_refuted`), and the end of a slice is ignored (`C64_slice_end_refuted`).
  `sys.version_info[18446744073709551615:] >= (1,)` crashes (`C64_crash_refuted`).
* C65: a walrus in a generator is only known at the end of the scope, so a later use is reported (`C65_generator_walrus_refuted`) and functions before it do not see the name
  (`C65_function_before_generator_refuted`); the first iterable of a generator in a class is not looked up in the class (`C65_generator_in_class_refuted`); bindings after a return
  (`C65_bound_after_return_refuted`) or after a loop that uses the name (`C65_bound_after_loop_refuted`) do not make it local; `nonlocal` in a class only finds earlier bindings
  (`C65_nonlocal_in_class_refuted`); in a loop the first iterable of a comprehension is reported though the loop has bound it (`C65_comprehension_in_loop_refuted`).  A class that
  uses a name before it binds it gets the one of the enclosing function, Python takes the global one.  `global x` twice gives an issue (not modelled).
* C66: extra items that may be changed accept read-only extra items (`C66_extra_read_only_refuted`) and read-only members (`C66_extra_member_refuted`); a closed TypedDict accepts a
  closed one with more members (`C66_closed_refuted`); the join of two TypedDicts (`[a, b]`) has the definition of the first one and is therefore accepted for it by a shortcut, though it
  lacks its keys (`C66_join_refuted`); with extra items the join is no supertype (`C66_join_extra_refuted`) and the meet no subtype (`C66_meet_extra_refuted`); `setdefault` sets a read-only
  key (`C66_setdefault_refuted`); `update` with a TypedDict that is not a display does not compare types (`C66_update_refuted`); unpacking with `**` does not look at extra items or
  hidden keys (`C66_unpack_refuted`); `in` drops a final TypedDict with extra items (`C66_final_refuted`) and ignores other keys than literals on the left (`C66_other_key_refuted`).
  Rejected without need: a key that is read-only, not required and of type object or missing in a closed TypedDict (`C66_missing_object_refuted`, `C66_missing_closed_refuted`), read-only
  extra items against required members or an open TypedDict (`C66_required_extra_refuted`).
* C67: a declared bound is also asked of values that bound the type only from above, so `Callable[[object], None]` is rejected for `Callable[[T], None]` with
  `T: int` (`C67_bound_refuted`); with constraints the first one that fits a value is taken, so the constraints `int, float` reject an int followed by a float
  (`C67_constraints_refuted`); in `T | str` the type variable also takes a str, which may not fit other arguments (`C67_union_refuted`), and if the str is not
  below the declared bound of `T`, it is still the type of `T` in the end (`C67_kind_refuted`). The common base of implicit literals is int: `f(cb, 1, 1)`, where
  `cb` takes `Literal[1, 2]`, is accepted with `T = int` (`update_lower_bound` does not compare the new lower bound with the upper one, `C67_literal_refuted`),
  and `f(cb, 1, 2)` is rejected (`C67_literals_refuted`). Seen but not modelled: `Bound::replace_type_var_likes` turns a lower bound into an upper one
  (bound.rs:118).
* C68: whether the reverse method goes first is decided by comparing the class that defines `__add__` for the left operand with the one that defines `__radd__` for
  the right one; Python compares the two `__radd__`. So a reverse method that both inherit may give the type (`C68_arithmetic_refuted`). Orderings of two operands
  of one class may take the reverse method first (`C68_ordering_same_refuted`), and the one of a subclass is not taken first if it is inherited
  (`C68_ordering_refuted`). `a + b` with `a: A`, `b: B` and `B(A).__radd__` raises a TypeError if both are a `B` (`C68_subclass_refuted`). The check of overlapping
  operators misses a method that is overridden between the parameter and the class (`C68_overlap_refuted`) and unrelated classes (`C68_multiple_refuted`). If one
  member of a union has no in-place method then `+=` is checked as `+` for all of them, with wrong types (`C68_augmented_refuted`) and wrong rejections
  (`C68_augmented_reject_refuted`). `in` is accepted if one member of the union takes the element (`C68_in_refuted`).
* C69: a comparison is reported although both values may be empty (`C69_empty_refuted`), both may be None (`C69_none_refuted`), or a tuple is a `Sequence` of other
  items (`C69_sequence_refuted`: assignability instead of overlap, also for dataclasses, `C69_dataclass_refuted`). Items behind an unpack are compared from the wrong
  end (`C69_unpacked_refuted`). A type variable with constraints overlaps with none of them (`C69_constraints_refuted`). Instances of a class with two bases
  (`C69_two_bases_refuted`) and contravariant arguments (`C69_contravariant_refuted`) are not thought of. `type[int] == type` is reported, `type == type[int]` is not
  (`C69_symmetric_refuted`). `Literal[5]` and `bool` overlap (`C69_literal_refuted`). There is no guard against endless recursion: with
  `class A(Sequence[list[A]])` and `class Y(list[Sequence[Y]])`, comparing an `A` with a `Sequence[Y]` never ends (`C69_answered_refuted`).
* C70: an abstract method of a base of a base is forgotten: with `class A(ABC)` that has it, `class B(A)` and `class C(B)`, `B()` is reported and `C()` is not, since `A`
  counts as another class that defines the name (`C70_grandchild_refuted`). An implementation in a later base counts though the abstract method comes first
  (`C70_late_refuted`). `@abc.abstractmethod` (`C70_qualified_refuted`) and abstract setters (`C70_setter_refuted`) are not recognised; a mere declaration `f: int`
  counts as an implementation (`C70_declared_refuted`). Abstract methods of dataclasses are not inherited (`C70_dataclass_refuted`). Reported without reason: a class
  whose implementation comes from a dataclass (`C70_dataclass_mixin_refuted`), and one whose abstract method is redefined in the same body (`C70_redefined_refuted`).
* C71: with joins the order of the items of a display counts: `[None, 1, ""]` is a list of `int | str | None`, `[1, "", None]` one of `object`
  (`C71_order_refuted`). For `class A(X, Y)` and `class B(Y, X)`, `[A(), B()]` has items of type `X`, `[B(), A()]` of type `Y` (`C71_symmetric_refuted`). The meet
  of unions drops pairs of unrelated classes that have a common subclass (`C71_meet_refuted`). With `class C(Sequence["C[C[T]]"])` and a class `D` like it, the join of
  `C[int]` and `D[int]` does not end: the check for cycles looks for equal types, and they grow (`C71_endless_refuted`).
* C72: members of enums where the checker and Python disagree: a nested class from 3.13 on (`C72_nested_refuted`), aliases of aliases, of private names and of
  nonmembers (`C72_alias_refuted`), functions of the module and `property(...)` (`C72_descriptor_refuted`), `A: int` followed by `A = 1` (`C72_declared_refuted`), members with
  equal values (`C72_equal_values_refuted`), names of `_ignore_` (`C72_ignored_refuted`), names like `_`, `_x__`, `___x___` (`C72_underscores_refuted`, `C72_names`), `_E__x` in `E` and
  `__x` in `_E` (`C72_private_refuted`), `staticmethod(...)` before 3.11 (`C72_before_refuted`). A reused name is reported for `A = 1; A: int`, and not for a method
  followed by an assignment (`C72_reused_refuted`). In `Enum("E", "A\tB")` the tab is part of a name (`C72_call_refuted`).
* C73: a method that returns `T | list[T]` is said to be covariant, as a list is an object (`C73_union_refuted`). A writable attribute `Callable[[T], None]` makes a class
  contravariant (`C73_writable_refuted`). The type of a setter is left out if the property has no `T` (`C73_setter_refuted`). The arguments of a returned own class are
  not looked at (`C73_return_refuted`). A parameter of type `C[T]` in `C`, or in a class that `C` uses, is judged with `C` covariant, and the result is kept even when `C`
  is then contravariant (`C73_self_refuted`, `C73_cycle_refuted`).
* C74: for `import os; from foo import (x,` with `y)` on the next line, a new standard library import is put between the brackets (`C74_inside_refuted`). In files with lone carriage
  returns it is put right behind the last import, on the same line (`C74_return_refuted`). It is put before `from __future__ import annotations; x = 1`, which is then an error
  (`C74_future_refuted`). `from m import *` becomes `from m import *, _x` (`C74_star_refuted`).
* C75: a nested `.gitignore` cannot take back what one above it ignores (`C75_git_refuted`). `zuban check a` checks files of `a` that the `.gitignore` of the project ignores
  (`C75_parent_refuted`). `zuban check '**/*.py'` checks the files of ignored directories (`C75_glob_refuted`) and of a directory in it that is a workspace of its own and not checked, such as one of `sys.path` (`C75_nested_refuted`).
  `zuban check script` checks nothing, without an error, if `script` has a comment like `# mypy: strict` (`C75_flags_refuted`).
* C76: behind a keyword argument, a signature with positional-only parameters does not count as fitting, and their positional arguments are counted for the others
  (`def h(a, /, b, c)`, `h(1, c=2, `: `C76_positional_only_refuted`). `g(b=1, d` shows the parameter `c` (`C76_prefix_refuted`). `f()` does not fit a function
  without parameters: with overloads, another one is active (`C76_empty_refuted`). `g(1, **` shows the parameter that is given already (`C76_star_star_refuted`).
* C77: to rename a package makes `file:///p/q__init__/.py` of `file:///p/pkg/__init__.py` (`C77_package_refuted`). For an attribute of a union, only the one of the
  first class is renamed (`C77_union_refuted`). Attributes defined in a method count as local, names in other files keep the old name (`C77_attribute_refuted`).
  A module has the position of the first byte of its file, and names that lead to a variable there are renamed with the module (`C77_module_refuted`). Definitions
  in dependencies are edited, the other names there not (`C77_dependency_refuted`).
* C78: fixtures of classes, `fixture(name=...)`, a decorator imported under another name, `pytest_plugins` as a string, `recwarn` and other modules of pytest, tests in
  nested classes and the plugins of a conftest for its own fixtures are not found (`C78_class_refuted`, `C78_given_refuted`, `C78_alias_refuted`, `C78_string_refuted`,
  `C78_builtin_refuted`, `C78_nested_refuted`, `C78_own_plugins_refuted`). Of two plugins the first wins instead of the last, and plugins win over conftests further
  outside (`C78_plugins_refuted`, `C78_outer_refuted`). A fixture that yields and is declared with `Iterator[int]` gives an iterator, one that returns a generator what
  the generator yields (`C78_type_refuted`).
* C79: fields called `match`, `case` or `type` are reported as keywords, and replaced with `rename=True` (`C79_soft_refuted`); names of classes that Python refuses are not
  reported (`C79_typename_refuted`); tabs and line breaks do not separate names (`C79_white_refuted`); `x²` is taken as a name (`C79_numeric_refuted`); `module=`,
  `defaults=None` and `typename=` are reported (`C79_arguments_refuted`); a tuple of three in `NamedTuple` is not (`C79_triple_refuted`).
* C80: the range of the imports starts at the start of the file, so that comments such as a license in front of the imports are folded with them (`C80_comment_refuted`).
* C81: a class that inherits from a dataclass that is not hashable is found hashable, because the bases are asked without the rule for `__hash__` (`C81_subclass_refuted`); so is a class with `__eq__` and no `__hash__` (`C81_eq_refuted`). A frozen dataclass below a class with `__hash__ = None` is found not hashable (`C81_frozen_hash_refuted`), and `unsafe_hash=True` with a `__hash__` in the body raises without being reported (`C81_unsafe_refuted`).
* C82: a class below a dataclass with an `__init__` in its body is called with the generated one, because generated names of bases come first (`C82_inherited_refuted`). `D.__init__` of a dataclass is that of a base such as object (`C82_type_init_refuted`), and `__match_args__` in the body is found on objects, but not on the class (`C82_type_match_args_refuted`).
* C83: a pyproject.toml without `tool.mypy` and `tool.zuban` ends the search with the default options, although a directory above has a configuration, which mypy would use (`C83_empty_refuted`).
* C63: a field of a base that is written again with `field(init=False)` or as a ClassVar stays a parameter (`C63_init_false_refuted`, `C63_class_var_refuted`); the other way around it is put
  at the end and not in its place (`C63_init_true_refuted`).  If it becomes keyword-only it stays in its place, so the following ones are lost for `__match_args__` and there may be an error about
  defaults (`C63_kw_only_refuted`, `C63_kw_only_default_refuted`); if it becomes positional the order is wrong (`C63_positional_refuted`).
* C63: `y: int` in a subclass hides `y: int = 0` of the base, in Python the default stays (`C63_bare_refuted`).  A class that is no dataclass in a diamond brings back older fields in Python
  (`C63_diamond_refuted`).
* C63: `__post_init__` gets an InitVar that is written again twice, one that became a field still, and keyword-only ones of a base last (`C63_post_init_twice_refuted`,
  `C63_post_init_field_refuted`, `C63_post_init_order_refuted`).  `replace` of a frozen dataclass does not ask for InitVars (`C63_replace_frozen_refuted`), and the length of `__slots__` is
  that of the parameters (`C63_slots_refuted`).
* C51: the combinations of the items of a tuple are laid out wrongly: of `tuple[int | str, int | str]` only `(int, int)` and `(str, str)` are tried, so
  overloads for these two accept a call with `(1, "")` (`C51_tuple_refuted`, in general `C51_pairs_refuted`).  The members of `tuple[bool]` are
  never tried (`C51_tried_refuted`).  A union given by keyword loses its name: it is rejected for keyword-only parameters (`C51_keyword_refuted`) and bound by
  position otherwise (`C51_names_refuted`).  `f(*xs)` with `xs: list[int | str]` is accepted for overloads with `*a: int` and `*a: str`
  (`C51_star_refuted`).  If an Any leaves open which variant is meant, variants that return `int | str` and `int | str | bytes` give `int | str`
  when mypy is imitated (`C51_fallback_refuted`).

Seen while reading, not in Coq: lookahead transitions of the same kind overwrite each other (`automaton.rs`); `impl From<&AbsPath> for Arc<AbsPath>`
transmutes an `Rc`; `is_case_sensitive` returns `cfg!(windows)`; `FileRename::to_uri` for `__init__`; `limit_length_for_debug` slices bytes;
`!stack.stack_nodes.len() != i + 1` in the error recovery of parsa is always true; the replay of a plan sets `children_count` of the parent
to 0; alternatives that are pushed when a node is reused have the index of their first child; `start_at` of `type_ignore_comment_for_region` is off by one per line; `# type: ignore []` and
`# type: ignore[a] b` ignore everything.
