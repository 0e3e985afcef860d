(** The rules of the Python grammar (crates/parsa_python/src/lib.rs) without lookaheads, as the macros of crates/parsa/src/lib.rs:545-705
    [__parse_rule] expand them.  Generated by a script from the source; names and keywords are numbers.

    Terminals: 0 Name, 1 Number, 2 String, 3 Bytes, 4 FStringStart, 5 FStringString, 6 FStringEnd, 7 Endmarker, 8 Newline, 9 Indent, 10 Dedent.
    Nonterminals: 100 and more, in the order of the source.
    Keywords: 0 `;`, 1 `async`, 2 `=`, 3 `+=`, 4 `-=`, 5 `*=`, 6 `@=`, 7 `/=`, 8 `%=`, 9 `&=`, 10 `|=`, 11 `^=`, 12 `<<=`, 13 `>>=`, 14 `**=`, 15 `//=`, 16 `return`, 17 `raise`, 18 `from`, 19 `global`, 20 `,`, 21 `nonlocal`, 22 `del`, 23 `assert`, 24 `pass`, 25 `break`, 26 `continue`, 27 `import`, 28 `.`, 29 `...`, 30 `*`, 31 `(`, 32 `)`, 33 `as`, 34 `@`, 35 `class`, 36 `:`, 37 `def`, 38 `->`, 39 `/`, 40 `**`, 41 `if`, 42 `elif`, 43 `else`, 44 `while`, 45 `for`, 46 `in`, 47 `with`, 48 `try`, 49 `except`, 50 `finally`, 51 `match`, 52 `None`, 53 `True`, 54 `False`, 55 `+`, 56 `-`, 57 `_`, 58 `[`, 59 `]`, 60 `{`, 61 `}`, 62 `type`, 63 `yield`, 64 `:=`, 65 `or`, 66 `and`, 67 `not`, 68 `<`, 69 `>`, 70 `==`, 71 `>=`, 72 `<=`, 73 `!=`, 74 `is`, 75 `|`, 76 `^`, 77 `&`, 78 `<<`, 79 `>>`, 80 `%`, 81 `//`, 82 `~`, 83 `await`, 84 `lambda`, 85 `!`.
    Rules with lookaheads, left out: param_no_default, except_expression, subject_expr, case_block, or_pattern, pattern_capture_target, param_patterns, named_expression, slices, lambda_param_no_default, arguments, star_target, single_target, t_primary. *)
From Coq Require Import List NArith Bool.
From Verif Require Import AutomatonModel.
Import ListNotations.
Local Open Scope N_scope.
Local Notation I := Identifier.
Local Notation K := KeywordRule.

Definition python_terminals (n : N) : option N := if n <? 11 then Some n else None.
Definition python_nonterminals (n : N) : option N := if (100 <=? n) && (n <? 249) then Some (n - 100) else None.

(** crates/parsa_python/src/lib.rs:23-23 [file]. *)
Definition rule_file : rule := Next (Maybe (Multiple (I 101))) (I 7).
(** crates/parsa_python/src/lib.rs:27-31 [stmt]. *)
Definition rule_stmt : rule := DoesErrorRecovery (Or (I 102) (Or (I 8) (Or (I 142) (Or (I 144) (Or (I 145) (Or (I 149) (Or (I 146) (Or (I 130) (Or (I 128) (Or (I 127) (Or (I 104) (Or (I 154) (I 105))))))))))))).
(** crates/parsa_python/src/lib.rs:32-32 [simple_stmts]. *)
Definition rule_simple_stmts : rule := Next (I 103) (Next (Maybe (Multiple (Next (K 0) (I 103)))) (Next (Maybe (K 0)) (I 8))).
(** crates/parsa_python/src/lib.rs:35-38 [simple_stmt]. *)
Definition rule_simple_stmt : rule := Or (I 106) (Or (I 176) (Or (I 187) (Or (I 112) (Or (I 114) (Or (I 117) (Or (I 118) (Or (I 110) (Or (I 111) (Or (I 113) (Or (I 115) (Or (I 116) (Or (I 108) (Or (I 109) (I 185)))))))))))))).
(** crates/parsa_python/src/lib.rs:39-39 [async_stmt]. *)
Definition rule_async_stmt : rule := Next (K 1) (Or (I 130) (Or (I 146) (I 145))).
(** crates/parsa_python/src/lib.rs:42-42 [broken_scope]. *)
Definition rule_broken_scope : rule := Next (I 9) (Next (Multiple (I 101)) (I 10)).
(** crates/parsa_python/src/lib.rs:46-49 [assignment]. *)
Definition rule_assignment : rule := Or (Next (Multiple (Next (I 241) (K 2))) (Or (I 185) (I 187))) (Or (Next (I 244) (Next (I 140) (Maybe (Next (K 2) (Or (I 185) (I 187)))))) (Next (I 244) (Next (I 107) (Or (I 185) (I 187))))).
(** crates/parsa_python/src/lib.rs:51-52 [augassign]. *)
Definition rule_augassign : rule := Or (K 3) (Or (K 4) (Or (K 5) (Or (K 6) (Or (K 7) (Or (K 8) (Or (K 9) (Or (K 10) (Or (K 11) (Or (K 12) (Or (K 13) (Or (K 14) (K 15)))))))))))).
(** crates/parsa_python/src/lib.rs:53-53 [return_stmt]. *)
Definition rule_return_stmt : rule := Next (K 16) (Maybe (I 187)).
(** crates/parsa_python/src/lib.rs:54-54 [raise_stmt]. *)
Definition rule_raise_stmt : rule := Next (K 17) (Maybe (Next (I 183) (Maybe (Next (K 18) (I 183))))).
(** crates/parsa_python/src/lib.rs:55-55 [global_stmt]. *)
Definition rule_global_stmt : rule := Next (K 19) (Next (I 246) (Maybe (Multiple (Next (K 20) (I 246))))).
(** crates/parsa_python/src/lib.rs:56-56 [nonlocal_stmt]. *)
Definition rule_nonlocal_stmt : rule := Next (K 21) (Next (I 246) (Maybe (Multiple (Next (K 20) (I 246))))).
(** crates/parsa_python/src/lib.rs:57-57 [del_stmt]. *)
Definition rule_del_stmt : rule := Next (K 22) (I 247).
(** crates/parsa_python/src/lib.rs:58-58 [assert_stmt]. *)
Definition rule_assert_stmt : rule := Next (K 23) (Next (I 183) (Maybe (Next (K 20) (I 183)))).
(** crates/parsa_python/src/lib.rs:59-59 [pass_stmt]. *)
Definition rule_pass_stmt : rule := K 24.
(** crates/parsa_python/src/lib.rs:60-60 [break_stmt]. *)
Definition rule_break_stmt : rule := K 25.
(** crates/parsa_python/src/lib.rs:61-61 [continue_stmt]. *)
Definition rule_continue_stmt : rule := K 26.
(** crates/parsa_python/src/lib.rs:65-65 [import_name]. *)
Definition rule_import_name : rule := Next (K 27) (I 121).
(** crates/parsa_python/src/lib.rs:67-69 [import_from]. *)
Definition rule_import_from : rule := Or (Next (K 18) (Next (Maybe (Multiple (Or (K 28) (K 29)))) (Next (I 123) (Next (K 27) (I 119))))) (Next (K 18) (Next (Multiple (Or (K 28) (K 29))) (Next (K 27) (I 119)))).
(** crates/parsa_python/src/lib.rs:70-70 [import_from_targets]. *)
Definition rule_import_from_targets : rule := Or (K 30) (Or (Next (K 31) (Next (Next (I 120) (Maybe (Multiple (Next (K 20) (I 120))))) (Next (Maybe (K 20)) (K 32)))) (Next (I 120) (Maybe (Multiple (Next (K 20) (I 120)))))).
(** crates/parsa_python/src/lib.rs:71-71 [import_from_as_name]. *)
Definition rule_import_from_as_name : rule := Or (Next (I 0) (Next (K 33) (I 246))) (I 246).
(** crates/parsa_python/src/lib.rs:72-72 [dotted_as_names]. *)
Definition rule_dotted_as_names : rule := Next (I 122) (Maybe (Multiple (Next (K 20) (I 122)))).
(** crates/parsa_python/src/lib.rs:73-73 [dotted_as_name]. *)
Definition rule_dotted_as_name : rule := Or (Next (I 123) (Next (K 33) (I 246))) (Next (I 246) (Maybe (Next (K 28) (I 123)))).
(** crates/parsa_python/src/lib.rs:74-74 [dotted_import_name]. *)
Definition rule_dotted_import_name : rule := Next (Maybe (Next (I 123) (K 28))) (I 0).
(** crates/parsa_python/src/lib.rs:82-82 [block]. *)
Definition rule_block : rule := Or (I 102) (Next (I 8) (Next (I 9) (Next (Multiple (I 101)) (I 10)))).
(** crates/parsa_python/src/lib.rs:83-83 [decorators]. *)
Definition rule_decorators : rule := Multiple (I 126).
(** crates/parsa_python/src/lib.rs:84-84 [decorator]. *)
Definition rule_decorator : rule := Next (K 34) (Next (I 191) (I 8)).
(** crates/parsa_python/src/lib.rs:85-85 [decorated]. *)
Definition rule_decorated : rule := Next (I 125) (Or (I 128) (Or (I 130) (I 129))).
(** crates/parsa_python/src/lib.rs:90-90 [class_def]. *)
Definition rule_class_def : rule := Next (K 35) (Next (I 246) (Next (Maybe (I 177)) (Next (Maybe (Next (K 31) (Next (Maybe (I 236)) (K 32)))) (Next (K 36) (I 124))))).
(** crates/parsa_python/src/lib.rs:95-95 [async_function_def]. *)
Definition rule_async_function_def : rule := Next (K 1) (I 130).
(** crates/parsa_python/src/lib.rs:96-96 [function_def]. *)
Definition rule_function_def : rule := Next (K 37) (Next (I 246) (Next (Maybe (I 177)) (Next (I 132) (Next (Maybe (I 131)) (Next (K 36) (I 124)))))).
(** crates/parsa_python/src/lib.rs:97-97 [return_annotation]. *)
Definition rule_return_annotation : rule := Next (K 38) (I 183).
(** crates/parsa_python/src/lib.rs:102-102 [function_def_parameters]. *)
Definition rule_function_def_parameters : rule := Next (K 31) (Next (Maybe (I 133)) (K 32)).
(** crates/parsa_python/src/lib.rs:104-138 [parameters]. *)
Definition rule_parameters : rule := Or (Next (Next (I 135) (Maybe (Multiple (Next (K 20) (I 135))))) (Maybe (Next (K 20) (Maybe (I 134))))) (Or (Next (Next (I 135) (Maybe (Multiple (Next (K 20) (I 135))))) (Next (K 20) (Next (K 39) (Maybe (Next (K 20) (Maybe (Or (Next (Next (I 135) (Maybe (Multiple (Next (K 20) (I 135))))) (Maybe (Next (K 20) (Maybe (Or (Next (Next (I 136) (Maybe (Multiple (Next (K 20) (I 136))))) (Maybe (Next (K 20) (Maybe (I 134))))) (Maybe (I 134))))))) (I 134)))))))) (Or (Next (Next (I 135) (Maybe (Multiple (Next (K 20) (I 135))))) (Next (K 20) (Next (K 39) (Maybe (Next (K 20) (Maybe (Or (Next (Next (I 136) (Maybe (Multiple (Next (K 20) (I 136))))) (Maybe (Next (K 20) (Maybe (I 134))))) (I 134)))))))) (Or (Next (Next (I 135) (Maybe (Multiple (Next (K 20) (I 135))))) (Next (K 20) (Next (Next (I 136) (Maybe (Multiple (Next (K 20) (I 136))))) (Or (Maybe (Next (K 20) (Maybe (I 134)))) (Next (K 20) (Next (K 39) (Maybe (Next (K 20) (Maybe (Or (Next (Next (I 136) (Maybe (Multiple (Next (K 20) (I 136))))) (Maybe (Next (K 20) (Maybe (I 134))))) (I 134))))))))))) (Or (Next (Next (I 136) (Maybe (Multiple (Next (K 20) (I 136))))) (Next (K 20) (Next (K 39) (Maybe (Next (K 20) (Maybe (Or (Next (Next (I 136) (Maybe (Multiple (Next (K 20) (I 136))))) (Maybe (Next (K 20) (Maybe (I 134))))) (I 134)))))))) (Or (Next (Next (I 136) (Maybe (Multiple (Next (K 20) (I 136))))) (Maybe (Next (K 20) (Maybe (I 134))))) (I 134)))))).
(** crates/parsa_python/src/lib.rs:139-142 [star_etc]. *)
Definition rule_star_etc : rule := Or (Next (I 138) (Next (Maybe (Next (K 20) (Next (I 137) (Maybe (Multiple (Next (K 20) (I 137))))))) (Maybe (Next (K 20) (Maybe (Next (I 139) (Maybe (K 20)))))))) (Or (Next (K 30) (Next (K 20) (Next (Next (I 137) (Maybe (Multiple (Next (K 20) (I 137))))) (Maybe (Next (K 20) (Maybe (Next (I 139) (Maybe (K 20))))))))) (Next (I 139) (Maybe (K 20)))).
(** crates/parsa_python/src/lib.rs:144-144 [param_with_default]. *)
Definition rule_param_with_default : rule := Next (I 246) (Next (Maybe (I 140)) (Next (K 2) (I 183))).
(** crates/parsa_python/src/lib.rs:145-145 [param_maybe_default]. *)
Definition rule_param_maybe_default : rule := Next (I 246) (Next (Maybe (I 140)) (Maybe (Next (K 2) (I 183)))).
(** crates/parsa_python/src/lib.rs:146-146 [starred_param]. *)
Definition rule_starred_param : rule := Next (K 30) (Next (I 246) (Maybe (I 141))).
(** crates/parsa_python/src/lib.rs:147-147 [double_starred_param]. *)
Definition rule_double_starred_param : rule := Next (K 40) (Next (I 246) (Maybe (I 140))).
(** crates/parsa_python/src/lib.rs:148-148 [annotation]. *)
Definition rule_annotation : rule := Next (K 36) (I 183).
(** crates/parsa_python/src/lib.rs:149-149 [star_annotation]. *)
Definition rule_star_annotation : rule := Next (K 36) (Or (I 188) (I 183)).
(** crates/parsa_python/src/lib.rs:154-154 [if_stmt]. *)
Definition rule_if_stmt : rule := Next (K 41) (Next (I 191) (Next (K 36) (Next (I 124) (Next (Maybe (Multiple (Next (K 42) (Next (I 191) (Next (K 36) (I 124)))))) (Maybe (I 143)))))).
(** crates/parsa_python/src/lib.rs:155-155 [else_block]. *)
Definition rule_else_block : rule := Next (K 43) (Next (K 36) (I 124)).
(** crates/parsa_python/src/lib.rs:160-160 [while_stmt]. *)
Definition rule_while_stmt : rule := Next (K 44) (Next (I 191) (Next (K 36) (Next (I 124) (Maybe (I 143))))).
(** crates/parsa_python/src/lib.rs:165-165 [for_stmt]. *)
Definition rule_for_stmt : rule := Next (K 45) (Next (I 241) (Next (K 46) (Next (I 187) (Next (K 36) (Next (I 124) (Maybe (I 143))))))).
(** crates/parsa_python/src/lib.rs:170-170 [with_stmt]. *)
Definition rule_with_stmt : rule := Next (K 47) (Next (I 147) (I 124)).
(** crates/parsa_python/src/lib.rs:171-171 [with_items]. *)
Definition rule_with_items : rule := Or (Next (K 31) (Next (Next (I 148) (Maybe (Multiple (Next (K 20) (I 148))))) (Next (Maybe (K 20)) (Next (K 32) (K 36))))) (Next (Next (I 148) (Maybe (Multiple (Next (K 20) (I 148))))) (K 36)).
(** crates/parsa_python/src/lib.rs:172-172 [with_item]. *)
Definition rule_with_item : rule := Next (I 183) (Maybe (Next (K 33) (I 242))).
(** crates/parsa_python/src/lib.rs:177-177 [try_stmt]. *)
Definition rule_try_stmt : rule := Next (K 48) (Next (K 36) (Next (I 124) (Or (Next (Or (Multiple (I 150)) (Multiple (I 151))) (Next (Maybe (I 143)) (Maybe (I 153)))) (I 153)))).
(** crates/parsa_python/src/lib.rs:182-182 [except_block]. *)
Definition rule_except_block : rule := Next (K 49) (Next (Maybe (I 152)) (Next (K 36) (I 124))).
(** crates/parsa_python/src/lib.rs:183-183 [except_star_block]. *)
Definition rule_except_star_block : rule := Next (K 49) (Next (K 30) (Next (I 152) (Next (K 36) (I 124)))).
(** crates/parsa_python/src/lib.rs:185-185 [finally_block]. *)
Definition rule_finally_block : rule := Next (K 50) (Next (K 36) (I 124)).
(** crates/parsa_python/src/lib.rs:190-190 [match_stmt]. *)
Definition rule_match_stmt : rule := Next (K 51) (Next (I 155) (Next (K 36) (Next (I 8) (Next (I 9) (Next (Multiple (I 156)) (I 10)))))).
(** crates/parsa_python/src/lib.rs:195-195 [guard]. *)
Definition rule_guard : rule := Next (K 41) (I 191).
(** crates/parsa_python/src/lib.rs:197-197 [pattern]. *)
Definition rule_pattern : rule := Next (I 159) (Maybe (Next (K 33) (I 163))).
(** crates/parsa_python/src/lib.rs:204-206 [literal_pattern]. *)
Definition rule_literal_pattern : rule := Or (I 161) (Or (I 162) (Or (I 224) (Or (I 225) (Or (K 52) (Or (K 53) (K 54)))))).
(** crates/parsa_python/src/lib.rs:207-207 [complex_number]. *)
Definition rule_complex_number : rule := Next (I 162) (Next (Or (K 55) (K 56)) (I 1)).
(** crates/parsa_python/src/lib.rs:208-208 [signed_number]. *)
Definition rule_signed_number : rule := Next (Maybe (K 56)) (I 1).
(** crates/parsa_python/src/lib.rs:211-211 [wildcard_pattern]. *)
Definition rule_wildcard_pattern : rule := K 57.
(** crates/parsa_python/src/lib.rs:213-213 [group_pattern]. *)
Definition rule_group_pattern : rule := Next (K 31) (Next (I 158) (K 32)).
(** crates/parsa_python/src/lib.rs:214-216 [sequence_pattern]. *)
Definition rule_sequence_pattern : rule := Or (Next (K 58) (Next (Maybe (I 167)) (K 59))) (Next (K 31) (Next (Maybe (I 167)) (K 32))).
(** crates/parsa_python/src/lib.rs:217-217 [open_sequence_pattern]. *)
Definition rule_open_sequence_pattern : rule := Next (Next (Or (I 168) (I 158)) (Maybe (Multiple (Next (K 20) (Or (I 168) (I 158)))))) (Maybe (K 20)).
(** crates/parsa_python/src/lib.rs:218-218 [star_pattern]. *)
Definition rule_star_pattern : rule := Next (K 30) (Or (I 163) (I 164)).
(** crates/parsa_python/src/lib.rs:220-222 [mapping_pattern]. *)
Definition rule_mapping_pattern : rule := Or (Next (K 60) (Next (Maybe (I 171)) (K 61))) (Next (K 60) (Next (Next (I 170) (Maybe (Multiple (Next (K 20) (I 170))))) (Next (Maybe (Next (K 20) (Maybe (I 171)))) (K 61)))).
(** crates/parsa_python/src/lib.rs:223-223 [key_value_pattern]. *)
Definition rule_key_value_pattern : rule := Next (Or (I 160) (I 175)) (Next (K 36) (I 158)).
(** crates/parsa_python/src/lib.rs:224-224 [double_star_pattern]. *)
Definition rule_double_star_pattern : rule := Next (K 40) (Next (I 163) (Maybe (K 20))).
(** crates/parsa_python/src/lib.rs:226-226 [class_pattern]. *)
Definition rule_class_pattern : rule := Next (I 175) (Next (K 31) (Next (Maybe (I 173)) (K 32))).
(** crates/parsa_python/src/lib.rs:230-230 [keyword_pattern]. *)
Definition rule_keyword_pattern : rule := Next (I 0) (Next (K 2) (I 158)).
(** crates/parsa_python/src/lib.rs:231-231 [dotted_pattern_name]. *)
Definition rule_dotted_pattern_name : rule := Next (Maybe (Next (I 175) (K 28))) (I 0).
(** crates/parsa_python/src/lib.rs:236-236 [type_alias]. *)
Definition rule_type_alias : rule := Next (K 62) (Next (I 246) (Next (Maybe (I 177)) (Next (K 2) (I 183)))).
(** crates/parsa_python/src/lib.rs:242-242 [type_params]. *)
Definition rule_type_params : rule := Next (K 58) (Next (Next (I 178) (Maybe (Multiple (Next (K 20) (I 178))))) (Next (Maybe (K 20)) (K 59))).
(** crates/parsa_python/src/lib.rs:244-247 [type_param]. *)
Definition rule_type_param : rule := Or (Next (I 246) (Next (Maybe (I 179)) (Maybe (I 180)))) (Or (Next (K 30) (Next (I 246) (Maybe (I 181)))) (Next (K 40) (Next (I 246) (Maybe (I 180))))).
(** crates/parsa_python/src/lib.rs:249-249 [type_param_bound]. *)
Definition rule_type_param_bound : rule := Next (K 36) (I 183).
(** crates/parsa_python/src/lib.rs:250-250 [type_param_default]. *)
Definition rule_type_param_default : rule := Next (K 2) (I 183).
(** crates/parsa_python/src/lib.rs:251-251 [type_param_starred_default]. *)
Definition rule_type_param_starred_default : rule := Next (K 2) (Or (I 183) (I 188)).
(** crates/parsa_python/src/lib.rs:256-256 [expressions]. *)
Definition rule_expressions : rule := Next (Next (I 183) (Maybe (Multiple (Next (K 20) (I 183))))) (Maybe (K 20)).
(** crates/parsa_python/src/lib.rs:257-257 [expression]. *)
Definition rule_expression : rule := Or (I 184) (I 211).
(** crates/parsa_python/src/lib.rs:258-258 [ternary]. *)
Definition rule_ternary : rule := NodeMayBeOmitted (Next (I 193) (Maybe (Next (K 41) (Next (I 193) (Next (K 43) (I 183)))))).
(** crates/parsa_python/src/lib.rs:260-260 [yield_expr]. *)
Definition rule_yield_expr : rule := Next (K 63) (Maybe (Or (I 186) (I 187))).
(** crates/parsa_python/src/lib.rs:261-261 [yield_from]. *)
Definition rule_yield_from : rule := Next (K 18) (I 183).
(** crates/parsa_python/src/lib.rs:263-263 [star_expressions]. *)
Definition rule_star_expressions : rule := Next (Next (Or (I 183) (I 188)) (Maybe (Multiple (Next (K 20) (Or (I 183) (I 188)))))) (Maybe (K 20)).
(** crates/parsa_python/src/lib.rs:264-264 [star_expression]. *)
Definition rule_star_expression : rule := Next (K 30) (I 198).
(** crates/parsa_python/src/lib.rs:265-265 [star_named_expressions]. *)
Definition rule_star_named_expressions : rule := Next (Next (I 190) (Maybe (Multiple (Next (K 20) (I 190))))) (Maybe (K 20)).
(** crates/parsa_python/src/lib.rs:266-266 [star_named_expression]. *)
Definition rule_star_named_expression : rule := NodeMayBeOmitted (Or (Next (K 30) (I 193)) (I 191)).
(** crates/parsa_python/src/lib.rs:269-269 [walrus]. *)
Definition rule_walrus : rule := Next (I 246) (Next (K 64) (I 183)).
(** crates/parsa_python/src/lib.rs:271-271 [disjunction]. *)
Definition rule_disjunction : rule := NodeMayBeOmitted (Next (Maybe (Next (I 193) (K 65))) (I 194)).
(** crates/parsa_python/src/lib.rs:272-272 [conjunction]. *)
Definition rule_conjunction : rule := NodeMayBeOmitted (Next (Maybe (Next (I 194) (K 66))) (I 195)).
(** crates/parsa_python/src/lib.rs:273-273 [inversion]. *)
Definition rule_inversion : rule := NodeMayBeOmitted (Or (Next (K 67) (I 195)) (I 196)).
(** crates/parsa_python/src/lib.rs:278-278 [comparison]. *)
Definition rule_comparison : rule := NodeMayBeOmitted (Next (I 198) (Maybe (Multiple (Next (I 197) (I 198))))).
(** crates/parsa_python/src/lib.rs:279-279 [comp_op]. *)
Definition rule_comp_op : rule := Or (K 68) (Or (K 69) (Or (K 70) (Or (K 71) (Or (K 72) (Or (K 73) (Or (K 46) (Or (Next (K 67) (K 46)) (Or (K 74) (Next (K 74) (K 67)))))))))).
(** crates/parsa_python/src/lib.rs:284-284 [bitwise_or]. *)
Definition rule_bitwise_or : rule := NodeMayBeOmitted (Next (Maybe (Next (I 198) (K 75))) (I 199)).
(** crates/parsa_python/src/lib.rs:285-285 [bitwise_xor]. *)
Definition rule_bitwise_xor : rule := NodeMayBeOmitted (Next (Maybe (Next (I 199) (K 76))) (I 200)).
(** crates/parsa_python/src/lib.rs:286-286 [bitwise_and]. *)
Definition rule_bitwise_and : rule := NodeMayBeOmitted (Next (Maybe (Next (I 200) (K 77))) (I 201)).
(** crates/parsa_python/src/lib.rs:287-287 [shift_expr]. *)
Definition rule_shift_expr : rule := NodeMayBeOmitted (Next (Maybe (Next (I 201) (Or (K 78) (K 79)))) (I 202)).
(** crates/parsa_python/src/lib.rs:292-292 [sum]. *)
Definition rule_sum : rule := NodeMayBeOmitted (Or (Next (I 202) (Next (Or (K 55) (K 56)) (I 203))) (I 203)).
(** crates/parsa_python/src/lib.rs:293-293 [term]. *)
Definition rule_term : rule := NodeMayBeOmitted (Next (Maybe (Next (I 203) (Or (K 30) (Or (K 34) (Or (K 39) (Or (K 80) (K 81))))))) (I 204)).
(** crates/parsa_python/src/lib.rs:294-294 [factor]. *)
Definition rule_factor : rule := NodeMayBeOmitted (Or (Next (Or (K 55) (Or (K 56) (K 82))) (I 204)) (I 205)).
(** crates/parsa_python/src/lib.rs:295-295 [power]. *)
Definition rule_power : rule := NodeMayBeOmitted (Next (I 206) (Maybe (Next (K 40) (I 204)))).
(** crates/parsa_python/src/lib.rs:300-300 [await_primary]. *)
Definition rule_await_primary : rule := NodeMayBeOmitted (Next (Maybe (K 83)) (I 207)).
(** crates/parsa_python/src/lib.rs:301-305 [primary]. *)
Definition rule_primary : rule := NodeMayBeOmitted (Or (Next (I 207) (Next (K 28) (I 0))) (Or (Next (I 207) (Next (K 31) (Next (Maybe (Or (I 236) (I 230))) (K 32)))) (Or (Next (I 207) (Next (K 58) (Next (I 208) (K 59)))) (I 210)))).
(** crates/parsa_python/src/lib.rs:307-307 [slice]. *)
Definition rule_slice : rule := Next (Maybe (I 183)) (Next (K 36) (Next (Maybe (I 183)) (Maybe (Next (K 36) (Maybe (I 183)))))).
(** crates/parsa_python/src/lib.rs:308-312 [atom]. *)
Definition rule_atom : rule := Or (Next (K 31) (Next (Maybe (Or (I 226) (Or (I 185) (Or (I 191) (I 230))))) (K 32))) (Or (Next (K 58) (Next (Maybe (Or (I 189) (I 230))) (K 59))) (Or (Next (K 60) (Next (Maybe (Or (I 227) (Or (I 189) (Or (I 235) (I 230))))) (K 61))) (Or (I 0) (Or (I 1) (Or (I 224) (Or (I 225) (Or (K 29) (Or (K 52) (Or (K 53) (K 54)))))))))).
(** crates/parsa_python/src/lib.rs:317-317 [lambda]. *)
Definition rule_lambda : rule := Next (K 84) (Next (Maybe (I 212)) (Next (K 36) (I 183))).
(** crates/parsa_python/src/lib.rs:320-354 [lambda_parameters]. *)
Definition rule_lambda_parameters : rule := Or (Next (Next (I 214) (Maybe (Multiple (Next (K 20) (I 214))))) (Maybe (Next (K 20) (Maybe (I 213))))) (Or (Next (Next (I 214) (Maybe (Multiple (Next (K 20) (I 214))))) (Next (K 20) (Next (K 39) (Maybe (Next (K 20) (Maybe (Or (Next (Next (I 214) (Maybe (Multiple (Next (K 20) (I 214))))) (Maybe (Next (K 20) (Maybe (Or (Next (Next (I 215) (Maybe (Multiple (Next (K 20) (I 215))))) (Maybe (Next (K 20) (Maybe (I 213))))) (Maybe (I 213))))))) (I 213)))))))) (Or (Next (Next (I 214) (Maybe (Multiple (Next (K 20) (I 214))))) (Next (K 20) (Next (K 39) (Maybe (Next (K 20) (Maybe (Or (Next (Next (I 215) (Maybe (Multiple (Next (K 20) (I 215))))) (Maybe (Next (K 20) (Maybe (I 213))))) (I 213)))))))) (Or (Next (Next (I 214) (Maybe (Multiple (Next (K 20) (I 214))))) (Next (K 20) (Next (Next (I 215) (Maybe (Multiple (Next (K 20) (I 215))))) (Or (Maybe (Next (K 20) (Maybe (I 213)))) (Next (K 20) (Next (K 39) (Maybe (Next (K 20) (Maybe (Or (Next (Next (I 215) (Maybe (Multiple (Next (K 20) (I 215))))) (Maybe (Next (K 20) (Maybe (I 213))))) (I 213))))))))))) (Or (Next (Next (I 215) (Maybe (Multiple (Next (K 20) (I 215))))) (Next (K 20) (Next (K 39) (Maybe (Next (K 20) (Maybe (Or (Next (Next (I 215) (Maybe (Multiple (Next (K 20) (I 215))))) (Maybe (Next (K 20) (Maybe (I 213))))) (I 213)))))))) (Or (Next (Next (I 215) (Maybe (Multiple (Next (K 20) (I 215))))) (Maybe (Next (K 20) (Maybe (I 213))))) (I 213)))))).
(** crates/parsa_python/src/lib.rs:355-358 [lambda_star_etc]. *)
Definition rule_lambda_star_etc : rule := Or (Next (I 217) (Next (Maybe (Next (K 20) (Next (I 216) (Maybe (Multiple (Next (K 20) (I 216))))))) (Maybe (Next (K 20) (Maybe (Next (I 218) (Maybe (K 20)))))))) (Or (Next (K 30) (Next (K 20) (Next (Next (I 216) (Maybe (Multiple (Next (K 20) (I 216))))) (Maybe (Next (K 20) (Maybe (Next (I 218) (Maybe (K 20))))))))) (Next (I 218) (Maybe (K 20)))).
(** crates/parsa_python/src/lib.rs:360-360 [lambda_param_with_default]. *)
Definition rule_lambda_param_with_default : rule := Next (I 246) (Next (K 2) (I 183)).
(** crates/parsa_python/src/lib.rs:361-361 [lambda_param_maybe_default]. *)
Definition rule_lambda_param_maybe_default : rule := Next (I 246) (Maybe (Next (K 2) (I 183))).
(** crates/parsa_python/src/lib.rs:362-362 [lambda_starred_param]. *)
Definition rule_lambda_starred_param : rule := Next (K 30) (I 246).
(** crates/parsa_python/src/lib.rs:363-363 [lambda_double_starred_param]. *)
Definition rule_lambda_double_starred_param : rule := Next (K 40) (I 246).
(** crates/parsa_python/src/lib.rs:368-368 [fstring]. *)
Definition rule_fstring : rule := Next (I 4) (Next (Maybe (Multiple (I 220))) (I 6)).
(** crates/parsa_python/src/lib.rs:369-369 [fstring_content]. *)
Definition rule_fstring_content : rule := NodeMayBeOmitted (Or (I 5) (I 222)).
(** crates/parsa_python/src/lib.rs:370-370 [fstring_conversion]. *)
Definition rule_fstring_conversion : rule := Next (K 85) (I 0).
(** crates/parsa_python/src/lib.rs:371-371 [fstring_expr]. *)
Definition rule_fstring_expr : rule := Next (K 60) (Next (I 182) (Next (Maybe (K 2)) (Next (Maybe (I 221)) (Next (Maybe (I 223)) (K 61))))).
(** crates/parsa_python/src/lib.rs:372-372 [fstring_format_spec]. *)
Definition rule_fstring_format_spec : rule := Next (K 36) (Maybe (Multiple (I 220))).
(** crates/parsa_python/src/lib.rs:374-374 [strings]. *)
Definition rule_strings : rule := Multiple (Or (I 2) (I 219)).
(** crates/parsa_python/src/lib.rs:375-375 [bytes]. *)
Definition rule_bytes : rule := Multiple (I 3).
(** crates/parsa_python/src/lib.rs:377-377 [tuple_content]. *)
Definition rule_tuple_content : rule := Next (I 190) (Next (K 20) (Maybe (I 189))).
(** crates/parsa_python/src/lib.rs:382-382 [dict_content]. *)
Definition rule_dict_content : rule := Next (Next (Or (I 228) (I 229)) (Maybe (Multiple (Next (K 20) (Or (I 228) (I 229)))))) (Maybe (K 20)).
(** crates/parsa_python/src/lib.rs:383-383 [dict_starred]. *)
Definition rule_dict_starred : rule := Next (K 40) (I 198).
(** crates/parsa_python/src/lib.rs:384-384 [dict_key_value]. *)
Definition rule_dict_key_value : rule := Next (I 183) (Next (K 36) (I 183)).
(** crates/parsa_python/src/lib.rs:389-389 [comprehension]. *)
Definition rule_comprehension : rule := Next (I 191) (I 231).
(** crates/parsa_python/src/lib.rs:390-390 [for_if_clauses]. *)
Definition rule_for_if_clauses : rule := Multiple (I 232).
(** crates/parsa_python/src/lib.rs:391-391 [async_for_if_clause]. *)
Definition rule_async_for_if_clause : rule := NodeMayBeOmitted (Next (Maybe (K 1)) (I 233)).
(** crates/parsa_python/src/lib.rs:392-392 [sync_for_if_clause]. *)
Definition rule_sync_for_if_clause : rule := Next (K 45) (Next (I 241) (Next (K 46) (Next (I 193) (Maybe (Multiple (I 234)))))).
(** crates/parsa_python/src/lib.rs:393-393 [comp_if]. *)
Definition rule_comp_if : rule := Next (K 41) (I 193).
(** crates/parsa_python/src/lib.rs:394-394 [dict_comprehension]. *)
Definition rule_dict_comprehension : rule := Next (I 229) (I 231).
(** crates/parsa_python/src/lib.rs:402-405 [kwargs]. *)
Definition rule_kwargs : rule := Or (Next (Next (Or (I 240) (I 238)) (Maybe (Multiple (Next (K 20) (Or (I 240) (I 238)))))) (Maybe (K 20))) (Or (Next (Next (Or (I 240) (I 238)) (Maybe (Multiple (Next (K 20) (Or (I 240) (I 238)))))) (Next (K 20) (Next (Next (Or (I 240) (I 239)) (Maybe (Multiple (Next (K 20) (Or (I 240) (I 239)))))) (Maybe (K 20))))) (Next (Next (Or (I 240) (I 239)) (Maybe (Multiple (Next (K 20) (Or (I 240) (I 239)))))) (Maybe (K 20)))).
(** crates/parsa_python/src/lib.rs:406-406 [starred_expression]. *)
Definition rule_starred_expression : rule := Next (K 30) (I 183).
(** crates/parsa_python/src/lib.rs:407-407 [double_starred_expression]. *)
Definition rule_double_starred_expression : rule := Next (K 40) (I 183).
(** crates/parsa_python/src/lib.rs:408-408 [kwarg]. *)
Definition rule_kwarg : rule := Next (I 0) (Next (K 2) (I 183)).
(** crates/parsa_python/src/lib.rs:416-416 [star_targets]. *)
Definition rule_star_targets : rule := Next (Next (I 242) (Maybe (Multiple (Next (K 20) (I 242))))) (Maybe (K 20)).
(** crates/parsa_python/src/lib.rs:418-418 [star_target_brackets]. *)
Definition rule_star_target_brackets : rule := Or (Next (K 31) (Next (Maybe (I 241)) (K 32))) (Next (K 58) (Next (Maybe (I 241)) (K 59))).
(** crates/parsa_python/src/lib.rs:431-431 [name_def]. *)
Definition rule_name_def : rule := I 0.
(** crates/parsa_python/src/lib.rs:436-436 [del_targets]. *)
Definition rule_del_targets : rule := Next (Next (Or (I 245) (Or (I 246) (I 248))) (Maybe (Multiple (Next (K 20) (Or (I 245) (Or (I 246) (I 248))))))) (Maybe (K 20)).
(** crates/parsa_python/src/lib.rs:437-437 [del_t_atom]. *)
Definition rule_del_t_atom : rule := Or (Next (K 31) (Next (Maybe (I 247)) (K 32))) (Next (K 58) (Next (Maybe (I 247)) (K 59))).

(** The rules of which the automaton is exact. *)
Definition python_rules : list rule :=
  [rule_file; rule_stmt; rule_simple_stmts; rule_simple_stmt; rule_async_stmt; rule_broken_scope; rule_assignment; rule_augassign;
   rule_return_stmt; rule_raise_stmt; rule_global_stmt; rule_nonlocal_stmt; rule_del_stmt; rule_assert_stmt; rule_pass_stmt; rule_break_stmt;
   rule_continue_stmt; rule_import_name; rule_import_from; rule_import_from_targets; rule_import_from_as_name; rule_dotted_as_names; rule_dotted_as_name; rule_dotted_import_name;
   rule_block; rule_decorators; rule_decorator; rule_decorated; rule_class_def; rule_async_function_def; rule_function_def; rule_return_annotation;
   rule_function_def_parameters; rule_parameters; rule_param_with_default; rule_param_maybe_default; rule_starred_param; rule_double_starred_param; rule_annotation; rule_star_annotation;
   rule_if_stmt; rule_else_block; rule_while_stmt; rule_for_stmt; rule_with_stmt; rule_with_items; rule_with_item; rule_try_stmt;
   rule_except_block; rule_except_star_block; rule_finally_block; rule_match_stmt; rule_guard; rule_pattern; rule_literal_pattern; rule_complex_number;
   rule_signed_number; rule_wildcard_pattern; rule_group_pattern; rule_sequence_pattern; rule_open_sequence_pattern; rule_star_pattern; rule_mapping_pattern; rule_key_value_pattern;
   rule_double_star_pattern; rule_class_pattern; rule_keyword_pattern; rule_dotted_pattern_name; rule_type_alias; rule_type_params; rule_type_param; rule_type_param_bound;
   rule_type_param_default; rule_type_param_starred_default; rule_expressions; rule_expression; rule_ternary; rule_yield_expr; rule_yield_from; rule_star_expressions;
   rule_star_expression; rule_star_named_expressions; rule_star_named_expression; rule_walrus; rule_disjunction; rule_conjunction; rule_inversion; rule_comparison;
   rule_comp_op; rule_bitwise_or; rule_bitwise_xor; rule_bitwise_and; rule_shift_expr; rule_sum; rule_term; rule_factor;
   rule_power; rule_await_primary; rule_primary; rule_slice; rule_atom; rule_lambda; rule_lambda_parameters; rule_lambda_param_with_default;
   rule_lambda_param_maybe_default; rule_lambda_starred_param; rule_lambda_double_starred_param; rule_fstring; rule_fstring_content; rule_fstring_conversion; rule_fstring_expr; rule_fstring_format_spec;
   rule_strings; rule_bytes; rule_tuple_content; rule_dict_content; rule_dict_starred; rule_dict_key_value; rule_comprehension; rule_for_if_clauses;
   rule_async_for_if_clause; rule_sync_for_if_clause; rule_comp_if; rule_dict_comprehension; rule_kwargs; rule_starred_expression; rule_double_starred_expression; rule_kwarg;
   rule_star_targets; rule_star_target_brackets; rule_name_def; rule_del_targets; rule_del_t_atom].
(** Those with an optional part that begins or ends with a repetition. *)
Definition python_rules_with_optional_repetitions : list rule := [rule_star_etc; rule_lambda_star_etc].
