(** Model of the bit-packed cache entry [Point] (crates/zuban_python/src/database.rs).
    [u32] values are [N]; where the Rust code could leave the 32-bit range the
    theorems carry the range as a hypothesis.  [debug_assert!]s are not part of the
    functions (release build); they are the side conditions of the operations in PointSpec.v. *)
From Coq Require Import NArith List Bool.
Import ListNotations.
Open Scope N_scope.

(** database.rs:471-476 [enum PointKind], [#[repr(u32)]], so the discriminants are
    the positions. *)
Inductive kind := K_Specific | K_Complex | K_Redirect | K_FileReference.

Definition kind_code (k : kind) : N :=
  match k with K_Specific => 0 | K_Complex => 1 | K_Redirect => 2 | K_FileReference => 3 end.

(** [mem::transmute] of a u32 to [PointKind]: undefined behaviour ([None]) if there is no such variant. *)
Definition kind_of_code (n : N) : option kind :=
  match n with
  | 0 => Some K_Specific | 1 => Some K_Complex | 2 => Some K_Redirect
  | 3 => Some K_FileReference | _ => None
  end.

(** database.rs:658-670 [enum Locality]. *)
Inductive locality :=
| L_NameBinder | L_Reserved1 | L_Reserved2 | L_File
| L_DirectExtern | L_Complex | L_ImplicitExtern | L_Todo.

Definition locality_code (l : locality) : N :=
  match l with
  | L_NameBinder => 0 | L_Reserved1 => 1 | L_Reserved2 => 2 | L_File => 3
  | L_DirectExtern => 4 | L_Complex => 5 | L_ImplicitExtern => 6 | L_Todo => 7
  end.

Definition locality_of_code (n : N) : option locality :=
  match n with
  | 0 => Some L_NameBinder | 1 => Some L_Reserved1 | 2 => Some L_Reserved2 | 3 => Some L_File
  | 4 => Some L_DirectExtern | 5 => Some L_Complex | 6 => Some L_ImplicitExtern | 7 => Some L_Todo
  | _ => None
  end.

(** database.rs:480-591 [enum Specific]: all 97 variants in source order. *)
Inductive specific :=
| S_ReservedBecauseUnused
| S_Analyzed
| S_Calculating
| S_Cycle
| S_UntypedFunctionSelfAssignment
| S_FirstNameOfNameDef
| S_NameOfNameDef
| S_Parent
| S_FunctionEndIsReachable
| S_FunctionEndIsUnreachable
| S_OverloadUnreachable
| S_AnyDueToError
| S_InvalidTypeDefinition
| S_ModuleNotFound
| S_BinaryExtension
| S_IfBranchAlwaysReachableInNameBinder
| S_IfBranchAlwaysReachableInTypeCheckingBlock
| S_IfBranchAfterAlwaysReachableInNameBinder
| S_IfBranchAlwaysUnreachableInNameBinder
| S_AssertAlwaysFails
| S_GlobalVariable
| S_NonlocalVariable
| S_String
| S_Float
| S_Complex
| S_Bytes
| S_None
| S_StringLiteral
| S_BytesLiteral
| S_IntLiteral
| S_BoolLiteral
| S_Ellipsis
| S_MaybeSelfParam
| S_Param
| S_Function
| S_AnnotationOrTypeCommentSimpleClassInstance
| S_AnnotationOrTypeCommentWithTypeVars
| S_AnnotationOrTypeCommentWithoutTypeVars
| S_AnnotationOrTypeCommentClassVar
| S_AnnotationOrTypeCommentFinal
| S_AnnotationTypeAlias
| S_SimpleGeneric
| S_BuiltinsType
| S_BuiltinsSuper
| S_BuiltinsIsinstance
| S_BuiltinsIssubclass
| S_TypingProtocol
| S_TypingGeneric
| S_TypingTuple
| S_TypingCallable
| S_TypingType
| S_TypingClassVar
| S_TypingUnion
| S_TypingOptional
| S_TypingCast
| S_TypingNewType
| S_TypingTypeVarClass
| S_TypingTypeVarTupleClass
| S_TypingParamSpecClass
| S_TypingConcatenateClass
| S_TypingLiteralString
| S_TypingUnpack
| S_TypingTypeAlias
| S_TypingTypeAliasType
| S_TypingFinal
| S_TypingLiteral
| S_TypingSelf
| S_TypingAnnotated
| S_TypingNeverOrNoReturn
| S_TypingAny
| S_TypingDataclassTransform
| S_TypingTypedDict
| S_TypingRequired
| S_TypingNotRequired
| S_TypingReadOnly
| S_TypingTypeGuard
| S_TypingTypeIs
| S_TypingTypeForm
| S_BuiltinsSentinel
| S_RevealTypeFunction
| S_AssertTypeFunction
| S_TypingNamedTuple
| S_CollectionsNamedTuple
| S_MypyExtensionsFlexibleAlias
| S_MypyExtensionsArg
| S_MypyExtensionsDefaultArg
| S_MypyExtensionsNamedArg
| S_MypyExtensionsDefaultNamedArg
| S_MypyExtensionsVarArg
| S_MypyExtensionsKwArg
| S_PartialNone
| S_PartialList
| S_PartialDict
| S_PartialSet
| S_PartialDefaultDict
| S_PartialDefaultDictWithList
| S_PartialDefaultDictWithSet.

(** The discriminants of the [#[repr(u32)]] enum. *)
Definition specific_code (s : specific) : N :=
  match s with
  | S_ReservedBecauseUnused => 0
  | S_Analyzed => 1
  | S_Calculating => 2
  | S_Cycle => 3
  | S_UntypedFunctionSelfAssignment => 4
  | S_FirstNameOfNameDef => 5
  | S_NameOfNameDef => 6
  | S_Parent => 7
  | S_FunctionEndIsReachable => 8
  | S_FunctionEndIsUnreachable => 9
  | S_OverloadUnreachable => 10
  | S_AnyDueToError => 11
  | S_InvalidTypeDefinition => 12
  | S_ModuleNotFound => 13
  | S_BinaryExtension => 14
  | S_IfBranchAlwaysReachableInNameBinder => 15
  | S_IfBranchAlwaysReachableInTypeCheckingBlock => 16
  | S_IfBranchAfterAlwaysReachableInNameBinder => 17
  | S_IfBranchAlwaysUnreachableInNameBinder => 18
  | S_AssertAlwaysFails => 19
  | S_GlobalVariable => 20
  | S_NonlocalVariable => 21
  | S_String => 22
  | S_Float => 23
  | S_Complex => 24
  | S_Bytes => 25
  | S_None => 26
  | S_StringLiteral => 27
  | S_BytesLiteral => 28
  | S_IntLiteral => 29
  | S_BoolLiteral => 30
  | S_Ellipsis => 31
  | S_MaybeSelfParam => 32
  | S_Param => 33
  | S_Function => 34
  | S_AnnotationOrTypeCommentSimpleClassInstance => 35
  | S_AnnotationOrTypeCommentWithTypeVars => 36
  | S_AnnotationOrTypeCommentWithoutTypeVars => 37
  | S_AnnotationOrTypeCommentClassVar => 38
  | S_AnnotationOrTypeCommentFinal => 39
  | S_AnnotationTypeAlias => 40
  | S_SimpleGeneric => 41
  | S_BuiltinsType => 42
  | S_BuiltinsSuper => 43
  | S_BuiltinsIsinstance => 44
  | S_BuiltinsIssubclass => 45
  | S_TypingProtocol => 46
  | S_TypingGeneric => 47
  | S_TypingTuple => 48
  | S_TypingCallable => 49
  | S_TypingType => 50
  | S_TypingClassVar => 51
  | S_TypingUnion => 52
  | S_TypingOptional => 53
  | S_TypingCast => 54
  | S_TypingNewType => 55
  | S_TypingTypeVarClass => 56
  | S_TypingTypeVarTupleClass => 57
  | S_TypingParamSpecClass => 58
  | S_TypingConcatenateClass => 59
  | S_TypingLiteralString => 60
  | S_TypingUnpack => 61
  | S_TypingTypeAlias => 62
  | S_TypingTypeAliasType => 63
  | S_TypingFinal => 64
  | S_TypingLiteral => 65
  | S_TypingSelf => 66
  | S_TypingAnnotated => 67
  | S_TypingNeverOrNoReturn => 68
  | S_TypingAny => 69
  | S_TypingDataclassTransform => 70
  | S_TypingTypedDict => 71
  | S_TypingRequired => 72
  | S_TypingNotRequired => 73
  | S_TypingReadOnly => 74
  | S_TypingTypeGuard => 75
  | S_TypingTypeIs => 76
  | S_TypingTypeForm => 77
  | S_BuiltinsSentinel => 78
  | S_RevealTypeFunction => 79
  | S_AssertTypeFunction => 80
  | S_TypingNamedTuple => 81
  | S_CollectionsNamedTuple => 82
  | S_MypyExtensionsFlexibleAlias => 83
  | S_MypyExtensionsArg => 84
  | S_MypyExtensionsDefaultArg => 85
  | S_MypyExtensionsNamedArg => 86
  | S_MypyExtensionsDefaultNamedArg => 87
  | S_MypyExtensionsVarArg => 88
  | S_MypyExtensionsKwArg => 89
  | S_PartialNone => 90
  | S_PartialList => 91
  | S_PartialDict => 92
  | S_PartialSet => 93
  | S_PartialDefaultDict => 94
  | S_PartialDefaultDictWithList => 95
  | S_PartialDefaultDictWithSet => 96
  end.

(** [mem::transmute] of a u32 to [Specific]. *)
Definition specific_of_code (n : N) : option specific :=
  match n with
  | 0 => Some S_ReservedBecauseUnused
  | 1 => Some S_Analyzed
  | 2 => Some S_Calculating
  | 3 => Some S_Cycle
  | 4 => Some S_UntypedFunctionSelfAssignment
  | 5 => Some S_FirstNameOfNameDef
  | 6 => Some S_NameOfNameDef
  | 7 => Some S_Parent
  | 8 => Some S_FunctionEndIsReachable
  | 9 => Some S_FunctionEndIsUnreachable
  | 10 => Some S_OverloadUnreachable
  | 11 => Some S_AnyDueToError
  | 12 => Some S_InvalidTypeDefinition
  | 13 => Some S_ModuleNotFound
  | 14 => Some S_BinaryExtension
  | 15 => Some S_IfBranchAlwaysReachableInNameBinder
  | 16 => Some S_IfBranchAlwaysReachableInTypeCheckingBlock
  | 17 => Some S_IfBranchAfterAlwaysReachableInNameBinder
  | 18 => Some S_IfBranchAlwaysUnreachableInNameBinder
  | 19 => Some S_AssertAlwaysFails
  | 20 => Some S_GlobalVariable
  | 21 => Some S_NonlocalVariable
  | 22 => Some S_String
  | 23 => Some S_Float
  | 24 => Some S_Complex
  | 25 => Some S_Bytes
  | 26 => Some S_None
  | 27 => Some S_StringLiteral
  | 28 => Some S_BytesLiteral
  | 29 => Some S_IntLiteral
  | 30 => Some S_BoolLiteral
  | 31 => Some S_Ellipsis
  | 32 => Some S_MaybeSelfParam
  | 33 => Some S_Param
  | 34 => Some S_Function
  | 35 => Some S_AnnotationOrTypeCommentSimpleClassInstance
  | 36 => Some S_AnnotationOrTypeCommentWithTypeVars
  | 37 => Some S_AnnotationOrTypeCommentWithoutTypeVars
  | 38 => Some S_AnnotationOrTypeCommentClassVar
  | 39 => Some S_AnnotationOrTypeCommentFinal
  | 40 => Some S_AnnotationTypeAlias
  | 41 => Some S_SimpleGeneric
  | 42 => Some S_BuiltinsType
  | 43 => Some S_BuiltinsSuper
  | 44 => Some S_BuiltinsIsinstance
  | 45 => Some S_BuiltinsIssubclass
  | 46 => Some S_TypingProtocol
  | 47 => Some S_TypingGeneric
  | 48 => Some S_TypingTuple
  | 49 => Some S_TypingCallable
  | 50 => Some S_TypingType
  | 51 => Some S_TypingClassVar
  | 52 => Some S_TypingUnion
  | 53 => Some S_TypingOptional
  | 54 => Some S_TypingCast
  | 55 => Some S_TypingNewType
  | 56 => Some S_TypingTypeVarClass
  | 57 => Some S_TypingTypeVarTupleClass
  | 58 => Some S_TypingParamSpecClass
  | 59 => Some S_TypingConcatenateClass
  | 60 => Some S_TypingLiteralString
  | 61 => Some S_TypingUnpack
  | 62 => Some S_TypingTypeAlias
  | 63 => Some S_TypingTypeAliasType
  | 64 => Some S_TypingFinal
  | 65 => Some S_TypingLiteral
  | 66 => Some S_TypingSelf
  | 67 => Some S_TypingAnnotated
  | 68 => Some S_TypingNeverOrNoReturn
  | 69 => Some S_TypingAny
  | 70 => Some S_TypingDataclassTransform
  | 71 => Some S_TypingTypedDict
  | 72 => Some S_TypingRequired
  | 73 => Some S_TypingNotRequired
  | 74 => Some S_TypingReadOnly
  | 75 => Some S_TypingTypeGuard
  | 76 => Some S_TypingTypeIs
  | 77 => Some S_TypingTypeForm
  | 78 => Some S_BuiltinsSentinel
  | 79 => Some S_RevealTypeFunction
  | 80 => Some S_AssertTypeFunction
  | 81 => Some S_TypingNamedTuple
  | 82 => Some S_CollectionsNamedTuple
  | 83 => Some S_MypyExtensionsFlexibleAlias
  | 84 => Some S_MypyExtensionsArg
  | 85 => Some S_MypyExtensionsDefaultArg
  | 86 => Some S_MypyExtensionsNamedArg
  | 87 => Some S_MypyExtensionsDefaultNamedArg
  | 88 => Some S_MypyExtensionsVarArg
  | 89 => Some S_MypyExtensionsKwArg
  | 90 => Some S_PartialNone
  | 91 => Some S_PartialList
  | 92 => Some S_PartialDict
  | 93 => Some S_PartialSet
  | 94 => Some S_PartialDefaultDict
  | 95 => Some S_PartialDefaultDictWithList
  | 96 => Some S_PartialDefaultDictWithSet
  | _ => None
  end.

(** database.rs:594-605 [Specific::is_partial], [is_function_state]. *)
Definition is_partial (s : specific) : bool :=
  match s with
  | S_PartialNone | S_PartialList | S_PartialDict | S_PartialSet | S_PartialDefaultDict
  | S_PartialDefaultDictWithList | S_PartialDefaultDictWithSet => true
  | _ => false
  end.

Definition is_function_state (s : specific) : bool :=
  match s with S_FunctionEndIsReachable | S_FunctionEndIsUnreachable => true | _ => false end.

(** database.rs:45-76: the bit layout. *)
Definition IS_ANALIZED_BIT_INDEX : N := 31.
Definition IN_GLOBAL_SCOPE_INDEX : N := 30.
Definition LOCALITY_BIT_INDEX : N := 27.
Definition NEEDS_FLOW_ANALYSIS_BIT_INDEX : N := 26.
Definition KIND_BIT_INDEX : N := 23.
Definition REST_MASK : N := N.shiftl 1 KIND_BIT_INDEX - 1.
Definition SPECIFIC_BIT_LEN : N := 8.
Definition SPECIFIC_MASK : N := N.shiftl 1 SPECIFIC_BIT_LEN - 1.
Definition IS_ANALIZED_MASK : N := N.shiftl 1 IS_ANALIZED_BIT_INDEX.
Definition IN_GLOBAL_SCOPE_MASK : N := N.shiftl 1 IN_GLOBAL_SCOPE_INDEX.
Definition NEEDS_FLOW_ANALYSIS_MASK : N := N.shiftl 1 NEEDS_FLOW_ANALYSIS_BIT_INDEX.
Definition LOCALITY_MASK : N := N.shiftl 7 LOCALITY_BIT_INDEX.
Definition KIND_MASK : N := N.shiftl 7 KIND_BIT_INDEX.
Definition FUNCTION_CHECKED_INDEX : N := SPECIFIC_BIT_LEN + 1.
Definition FUNCTION_CHECKED_MASK : N := N.shiftl 1 FUNCTION_CHECKED_INDEX.
Definition PARTIAL_NULLABLE_INDEX : N := SPECIFIC_BIT_LEN + 1.
Definition PARTIAL_NULLABLE_MASK : N := N.shiftl 1 PARTIAL_NULLABLE_INDEX.
Definition PARTIAL_REPORTED_ERROR_INDEX : N := SPECIFIC_BIT_LEN + 2.
Definition PARTIAL_REPORTED_ERROR_MASK : N := N.shiftl 1 PARTIAL_REPORTED_ERROR_INDEX.
Definition PARTIAL_FINISHED_INDEX : N := SPECIFIC_BIT_LEN + 3.
Definition PARTIAL_FINISHED_MASK : N := N.shiftl 1 PARTIAL_FINISHED_INDEX.
Definition CALCULATED_OR_REDIRECT_LIKE_KIND_OR_REST_MASK : N :=
  N.lor (N.lor IS_ANALIZED_MASK KIND_MASK) REST_MASK.
Definition REDIRECT_KIND_VALUE : N := N.shiftl (kind_code K_Redirect) KIND_BIT_INDEX.

(** [b as u32] *)
Definition b2n (b : bool) : N := if b then 1 else 0.

(** database.rs:78-81 [struct Point]. *)
Record point := mk_point { flags : N; pnode : N }.

(** database.rs:85-93 [calculate_flags]. *)
Definition calculate_flags (k : kind) (rest : N) (l : locality) : N :=
  N.lor (N.lor (N.lor rest IS_ANALIZED_MASK)
               (N.shiftl (locality_code l) LOCALITY_BIT_INDEX))
        (N.shiftl (kind_code k) KIND_BIT_INDEX).

(** database.rs:201-204 [with_in_global_scope]. *)
Definition with_in_global_scope (p : point) (b : bool) : point :=
  mk_point (N.lor (flags p) (N.shiftl (b2n b) IN_GLOBAL_SCOPE_INDEX)) (pnode p).

(** database.rs:186-189 [with_needs_flow_analysis]. *)
Definition with_needs_flow_analysis (p : point) (b : bool) : point :=
  mk_point (N.lor (flags p) (N.shiftl (b2n b) NEEDS_FLOW_ANALYSIS_BIT_INDEX)) (pnode p).

(** database.rs:191-198 [with_changed_node_index]. *)
Definition with_changed_node_index (p : point) (n : N) : point := mk_point (flags p) n.

(** database.rs:95-98 [new_redirect]. *)
Definition new_redirect (file node : N) (l : locality) : point :=
  mk_point (calculate_flags K_Redirect file l) node.

(** database.rs:100-114 [new_first_name_of_name_def]. *)
Definition new_first_name_of_name_def (node : N) (g : bool) (l : locality) : point :=
  with_in_global_scope
    (mk_point (calculate_flags K_Specific (specific_code S_FirstNameOfNameDef) l) node) g.

(** database.rs:116-130 [new_name_of_name_def]. *)
Definition new_name_of_name_def (node : N) (g : bool) (l : locality) : point :=
  with_in_global_scope
    (mk_point (calculate_flags K_Specific (specific_code S_NameOfNameDef) l) node) g.

(** database.rs:132-137 [new_parent]. *)
Definition new_parent (node : N) (l : locality) : point :=
  mk_point (calculate_flags K_Specific (specific_code S_Parent) l) node.

(** database.rs:139-146 [new_complex_point]; the [assert!] is kept in release builds: [None] is the panic. *)
Definition new_complex_point (i : N) (l : locality) : option point :=
  if i <=? REST_MASK then Some (mk_point (calculate_flags K_Complex i l) 0) else None.

(** database.rs:148-154 [new_specific]. *)
Definition new_specific (s : specific) (l : locality) : point :=
  mk_point (calculate_flags K_Specific (specific_code s) l) 0.

(** database.rs:156-161 [new_calculating]. *)
Definition new_calculating : point := mk_point (specific_code S_Calculating) 0.

(** database.rs:163-169 [new_file_reference]. *)
Definition new_file_reference (file : N) (l : locality) : point :=
  mk_point (calculate_flags K_FileReference file l) 0.

(** database.rs:171-176 [new_analyzed_with_node_index]. *)
Definition new_analyzed_with_node_index (l : locality) (node : N) : point :=
  mk_point (flags (new_specific S_Analyzed l)) node.

(** database.rs:178-183 [new_uncalculated]. *)
Definition new_uncalculated : point := mk_point 0 0.

(** database.rs:206-209 [kind]. *)
Definition get_kind (p : point) : option kind :=
  kind_of_code (N.shiftr (N.land (flags p) KIND_MASK) KIND_BIT_INDEX).

(** database.rs:211-213 [locality]. *)
Definition get_locality (p : point) : option locality :=
  locality_of_code (N.shiftr (N.land (flags p) LOCALITY_MASK) LOCALITY_BIT_INDEX).

(** database.rs:215-218 [needs_flow_analysis] ([can_be_redefined] is an alias). *)
Definition needs_flow_analysis (p : point) : bool :=
  0 <? N.land (flags p) NEEDS_FLOW_ANALYSIS_MASK.

(** database.rs:226-228 [calculated]. *)
Definition calculated (p : point) : bool := negb (N.land (flags p) IS_ANALIZED_MASK =? 0).

(** database.rs:230-232 [calculating]. *)
Definition calculating (p : point) : bool := flags p =? specific_code S_Calculating.

(** database.rs:234-237 [in_global_scope]. *)
Definition in_global_scope (p : point) : bool :=
  negb (N.land (flags p) IN_GLOBAL_SCOPE_MASK =? 0).

(** database.rs:239-246 [file_index]. *)
Definition file_index (p : point) : N := N.land (flags p) REST_MASK.

(** database.rs:248-254 [complex_index]. *)
Definition complex_index (p : point) : N := N.land (flags p) REST_MASK.

(** database.rs:263-277 [node_index]. *)
Definition node_index (p : point) : N := pnode p.

(** database.rs:318-321 [specific]. *)
Definition get_specific (p : point) : option specific :=
  specific_of_code (N.land (flags p) SPECIFIC_MASK).

(** database.rs:287-291 [maybe_redirect_to]. *)
Definition maybe_redirect_to (p : point) (file node : N) : bool :=
  (pnode p =? node) &&
  (N.land (flags p) CALCULATED_OR_REDIRECT_LIKE_KIND_OR_REST_MASK
   =? N.lor (N.lor IS_ANALIZED_MASK REDIRECT_KIND_VALUE) file).

(** database.rs:323-326 [function_was_checked]. *)
Definition function_was_checked (p : point) : bool := 0 <? N.land (flags p) FUNCTION_CHECKED_MASK.

(** database.rs:328-332 [set_checked_function]. *)
Definition set_checked_function (p : point) : point :=
  mk_point (N.lor (flags p) (N.shiftl 1 FUNCTION_CHECKED_INDEX)) (pnode p).

(** database.rs:709-713 [struct PartialFlags]. *)
Record partial_flags := mk_pf { nullable : bool; reported_error : bool; finished : bool }.

(** database.rs:334-341 [partial_flags]. *)
Definition get_partial_flags (p : point) : partial_flags :=
  mk_pf (negb (N.land (flags p) PARTIAL_NULLABLE_MASK =? 0))
        (negb (N.land (flags p) PARTIAL_REPORTED_ERROR_MASK =? 0))
        (negb (N.land (flags p) PARTIAL_FINISHED_MASK =? 0)).

(** database.rs:343-366 [set_partial_flags]; [a & !m] is [N.ldiff a m].  Note that the finished bit is not cleared. *)
Definition set_partial_flags (p : point) (f : partial_flags) : point :=
  let fl := N.ldiff (N.ldiff (flags p) PARTIAL_NULLABLE_MASK) PARTIAL_REPORTED_ERROR_MASK in
  let fl := N.lor fl (N.shiftl (b2n (nullable f)) PARTIAL_NULLABLE_INDEX) in
  let fl := N.lor fl (N.shiftl (b2n (reported_error f)) PARTIAL_REPORTED_ERROR_INDEX) in
  let fl := N.lor fl (N.shiftl (b2n (finished f)) PARTIAL_FINISHED_INDEX) in
  mk_point fl (pnode p).

(** database.rs:427-436 [Points::invalidate_references_to] over the vector of cells.
    [locality] of every cell is total (all eight values are variants), so the undefined case is never taken. *)
Definition invalidate_cell (f : option N) (p : point) : point :=
  match get_locality p with
  | Some l =>
      if (match l with L_DirectExtern => true | _ => false end) &&
         (match f with Some f => file_index p =? f | None => false end)
      then new_uncalculated
      else if locality_code L_Complex <=? locality_code l then new_uncalculated else p
  | None => p
  end.

Definition invalidate_references_to (f : option N) (ps : list point) : list point :=
  map (invalidate_cell f) ps.

(** database.rs:449-455 [Points::backup], [reset_from_backup] for a range [start, end); [None] = index panic. *)
Definition backup (ps : list point) (start stop : nat) : option (nat * list point) :=
  if Nat.leb start stop && Nat.leb stop (length ps)
  then Some (start, firstn (stop - start) (skipn start ps)) else None.

Fixpoint set_at (ps : list point) (i : nat) (p : point) : list point :=
  match ps, i with
  | [], _ => []
  | _ :: r, O => p :: r
  | q :: r, S i => q :: set_at r i p
  end.

Fixpoint reset_from_backup (ps : list point) (start : nat) (saved : list point) : list point :=
  match saved with
  | [] => ps
  | p :: r => reset_from_backup (set_at ps start p) (S start) r
  end.
