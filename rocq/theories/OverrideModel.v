(** Model of the per-module override sections and the flags they set (crates/config/src/lib.rs).
    Rust strings are modelled by their bytes (Coq strings). *)
From Coq Require Import String Ascii List Bool.
Import ListNotations.
Open Scope string_scope.

(** [str::split('.')]: always at least one piece. *)
Fixpoint split_on (c : ascii) (s : string) : list string :=
  match s with
  | EmptyString => [EmptyString]
  | String x r =>
      if Ascii.eqb x c then EmptyString :: split_on c r
      else match split_on c r with
           | p :: ps => String x p :: ps
           | [] => [String x EmptyString]
           end
  end.

(** [str::strip_prefix]. *)
Fixpoint strip_prefix (p s : string) : option string :=
  match p, s with
  | EmptyString, _ => Some s
  | String a p, String b s => if Ascii.eqb a b then strip_prefix p s else None
  | String _ _, EmptyString => None
  end.

(** crates/config/src/lib.rs:763-767 [enum OverrideKind]; the derived order is the order of the variants. *)
Inductive override_kind := WellStructured | Unstructured | ModuleName.

Definition kind_leb (a b : override_kind) : bool :=
  match a, b with
  | WellStructured, _ => true
  | Unstructured, WellStructured => false
  | Unstructured, _ => true
  | ModuleName, ModuleName => true
  | ModuleName, _ => false
  end.

(** crates/config/src/lib.rs:770-773 [enum OverridePathPart]. *)
Inductive path_part := Part (s : string) | Wildcard.

(** crates/config/src/lib.rs:776-779 [struct OverridePath]. *)
Record override_path := mk_path { o_path : list path_part; o_kind : override_kind }.

(** crates/config/src/lib.rs:781-807: the closure of [From<&str> for OverridePath]. *)
Definition to_part (s : string) : path_part := if String.eqb s "*" then Wildcard else Part s.

(** The two flags computed by the same iteration: [had_star] and [had_name_after_star]. *)
Fixpoint star_flags (l : list path_part) (had_star had_name_after_star : bool) : bool * bool :=
  match l with
  | [] => (had_star, had_name_after_star)
  | Wildcard :: r => star_flags r true had_name_after_star
  | Part _ :: r => star_flags r had_star (had_name_after_star || had_star)
  end.

(** crates/config/src/lib.rs:781-807 [From<&str> for OverridePath]. *)
Definition parse_override (value : string) : override_path :=
  let path := map to_part (split_on "."%char value) in
  let '(had_star, had_name_after_star) := star_flags path false false in
  mk_path path (if had_name_after_star then Unstructured
                else if had_star then WellStructured else ModuleName).

(** crates/config/src/lib.rs:834-851 [check_wildcard_parents]; [matches] is the enclosing function on the rest of the
    reversed pattern.  [parents] are the names of the enclosing directories, innermost first. *)
Fixpoint check_wildcard_parents (matches : string -> list string -> bool) (rest_empty : bool)
  (name : string) (parents : list string) : bool :=
  if matches name parents then true
  else match parents with
       | dir :: up => check_wildcard_parents matches rest_empty dir up
       | [] => rest_empty
       end.

(** crates/config/src/lib.rs:811-855, the inner [matches_file_path] over the reversed pattern. *)
Fixpoint matches_rev (reverse_path : list path_part) (name : string) (parents : list string) : bool :=
  match reverse_path with
  | [] => false
  | Part part :: rest =>
      String.eqb name part &&
      match parents with
      | dir :: up => matches_rev rest dir up
      | [] => match rest with [] => true | _ => false end
      end
  | Wildcard :: rest =>
      check_wildcard_parents (matches_rev rest)
        (match rest with [] => true | _ => false end) name parents
  end.

(** crates/config/src/lib.rs:810-857 [matches_file_path]. *)
Definition matches_file_path (p : override_path) (name : string) (parents : list string) : bool :=
  matches_rev (rev (o_path p)) name parents.

(** ** Flags *)

(** The boolean fields of crates/config/src/lib.rs:553-599 [struct TypeCheckerFlags]. *)
Inductive field :=
| F_strict_optional | F_strict_equality | F_implicit_optional | F_check_untyped_defs
| F_ignore_missing_imports | F_follow_untyped_imports | F_disallow_untyped_defs
| F_disallow_untyped_calls | F_disallow_untyped_decorators | F_disallow_any_generics
| F_disallow_any_decorated | F_disallow_any_explicit | F_disallow_any_unimported
| F_disallow_any_expr | F_disallow_subclassing_any | F_disallow_incomplete_defs
| F_allow_untyped_globals | F_allow_redefinition | F_allow_empty_bodies | F_warn_unreachable
| F_warn_redundant_casts | F_warn_return_any | F_warn_no_return | F_local_partial_types
| F_no_implicit_reexport | F_disable_bytearray_promotion | F_disable_memoryview_promotion
| F_extra_checks | F_case_sensitive | F_use_joins | F_disallow_deprecated
| F_allow_incomplete_generics | F_check_untyped_overrides | F_untyped_strict_optional.

Definition field_eq_dec : forall a b : field, {a = b} + {a <> b}.
Proof. decide equality. Defined.

(** crates/config/src/lib.rs:546-550 [enum IgnoreFileReason] (the variants used by the configuration). *)
Inductive ignore_reason := IgnoreErrorsInConfigFile | IgnoreErrorsAtTopOfFile | TypeIgnoreAtTopOfFile.

(** The list-valued fields of [TypeCheckerFlags]. *)
Inductive list_field := L_enabled | L_disabled | L_always_true | L_always_false.
Definition list_field_eq_dec : forall a b : list_field, {a = b} + {a <> b}.
Proof. decide equality. Defined.

(** crates/config/src/lib.rs:553-599 [struct TypeCheckerFlags]: the boolean fields as a function; excludes by the text of
    the regular expression. *)
Record flags := mk_flags {
  bools : field -> bool;
  ignore_errors : option ignore_reason;
  lists : list_field -> list string;
  excludes : list string
}.

Definition set_bool (f : flags) (x : field) (b : bool) : flags :=
  mk_flags (fun y => if field_eq_dec x y then b else bools f y) (ignore_errors f) (lists f) (excludes f).

Definition add_list (f : flags) (x : list_field) (l : list string) : flags :=
  mk_flags (bools f) (ignore_errors f)
    (fun y => if list_field_eq_dec x y then (lists f y ++ l)%list else lists f y) (excludes f).

Definition set_ignore_errors (f : flags) (r : option ignore_reason) : flags :=
  mk_flags (bools f) r (lists f) (excludes f).

Definition add_exclude (f : flags) (r : list string) : flags :=
  mk_flags (bools f) (ignore_errors f) (lists f) (excludes f ++ r)%list.

(** crates/config/src/lib.rs:930-934 [enum IniOrTomlValue]; a TOML value that is neither bool, string nor array is
    [T_other]; an array element that is not a string is [None]. *)
Inductive value :=
| T_bool (b : bool) | T_string (s : string) | T_array (l : list (option string)) | T_other
| Ini (s : string) | NoValue.

(** [str::to_lowercase] restricted to ASCII letters: no character outside ASCII has a lower case spelling made of the
    letters of the words compared below. *)
Definition lower_ascii (a : ascii) : ascii :=
  let n := nat_of_ascii a in
  if Nat.leb 65 n && Nat.leb n 90 then ascii_of_nat (n + 32) else a.
Fixpoint lower (s : string) : string :=
  match s with EmptyString => EmptyString | String a r => String (lower_ascii a) (lower r) end.

Definition mem (s : string) (l : list string) : bool := existsb (String.eqb s) l.

(** crates/config/src/lib.rs:945-958 [as_bool]; [None] is the error. *)
Definition as_bool (v : value) (invert : bool) : option bool :=
  let result :=
    match v with
    | T_bool b => Some b
    | T_string _ | T_array _ | T_other => None
    | Ini s =>
        let s := lower s in
        if mem s ["true"; "1"; "yes"; "on"] then Some true
        else if mem s ["false"; "0"; "no"; "off"] then Some false
        else None
    | NoValue => Some true
    end in
  match result with Some r => Some (xorb r invert) | None => None end.

(** crates/config/src/lib.rs:18-23. *)
Definition OPTIONS_STARTING_WITH_ALLOW : list string :=
  ["allow_untyped_globals"; "allow_redefinition"; "allow_redefinition_new"; "allow_empty_bodies"].

(** crates/config/src/lib.rs:993-1004 [maybe_invert]. *)
Definition maybe_invert (name : string) : bool * string :=
  match strip_prefix "no_" name with
  | Some after => (true, after)
  | None =>
      if (match strip_prefix "allow" name with Some _ => true | None => false end)
         && negb (mem name OPTIONS_STARTING_WITH_ALLOW)
      then (true, "dis" ++ name)
      else match strip_prefix "dis" name with
           | Some after => if mem after OPTIONS_STARTING_WITH_ALLOW then (true, after) else (false, name)
           | None => (false, name)
           end
  end.

(** What an arm of the match in [set_bool_init_flags] does. *)
Inductive arm :=
| A_set (x : field)          (* flags.x = value.as_bool(invert)? *)
| A_set_neg (x : field)      (* flags.x = !value.as_bool(invert)? *)
| A_ignore_errors
| A_nothing
| A_fail.

(** The arms of crates/config/src/lib.rs:1069-1149 [set_bool_init_flags], in source order. *)
Definition arms : list (string * arm) :=
  [ ("strict_optional", A_set F_strict_optional);
    ("strict_equality", A_set F_strict_equality);
    ("implicit_optional", A_set F_implicit_optional);
    ("check_untyped_defs", A_set F_check_untyped_defs);
    ("ignore_missing_imports", A_set F_ignore_missing_imports);
    ("follow_untyped_imports", A_set F_follow_untyped_imports);
    ("disallow_untyped_defs", A_set F_disallow_untyped_defs);
    ("disallow_untyped_calls", A_set F_disallow_untyped_calls);
    ("disallow_untyped_decorators", A_set F_disallow_untyped_decorators);
    ("disallow_any_generics", A_set F_disallow_any_generics);
    ("disallow_any_decorated", A_set F_disallow_any_decorated);
    ("disallow_any_explicit", A_set F_disallow_any_explicit);
    ("disallow_any_unimported", A_set F_disallow_any_unimported);
    ("disallow_any_expr", A_set F_disallow_any_expr);
    ("disallow_subclassing_any", A_set F_disallow_subclassing_any);
    ("disallow_incomplete_defs", A_set F_disallow_incomplete_defs);
    ("allow_untyped_globals", A_set F_allow_untyped_globals);
    ("allow_empty_bodies", A_set F_allow_empty_bodies);
    ("warn_unreachable", A_set F_warn_unreachable);
    ("warn_return_any", A_set F_warn_return_any);
    ("warn_no_return", A_set F_warn_no_return);
    ("local_partial_types", A_set F_local_partial_types);
    ("implicit_reexport", A_set_neg F_no_implicit_reexport);
    ("allow_redefinition", A_set F_allow_redefinition);
    ("allow_redefinition_new", A_set F_allow_redefinition);
    ("disable_bytearray_promotion", A_set F_disable_bytearray_promotion);
    ("disable_memoryview_promotion", A_set F_disable_memoryview_promotion);
    ("warn_unused_ignores", A_nothing);
    ("strict_concatenate", A_nothing);
    ("strict_bytes", A_nothing);
    ("strict_equality_for_none", A_nothing);
    ("sqlite_cache", A_nothing);
    ("incremental", A_nothing);
    ("force_uppercase_builtins", A_nothing);
    ("force_union_syntax", A_nothing);
    ("verbosity", A_nothing);
    ("color_output", A_nothing);
    ("extra_checks", A_set F_extra_checks);
    ("follow_imports", A_nothing);
    ("follow_imports_for_stubs", A_nothing);
    ("cache_fine_grained", A_nothing);
    ("ignore_errors", A_ignore_errors);
    ("python_version", A_fail);
    ("untyped_strict_optional", A_set F_untyped_strict_optional) ].

Fixpoint find_arm (name : string) (l : list (string * arm)) : option arm :=
  match l with
  | [] => None
  | (n, a) :: r => if String.eqb name n then Some a else find_arm name r
  end.

(** crates/config/src/lib.rs:1069-1149 [set_bool_init_flags]; the flag tells success. *)
Definition set_bool_init_flags (f : flags) (name : string) (v : value) (invert error_if_unrecognized : bool)
  : flags * bool :=
  match find_arm name arms with
  | Some (A_set x) => match as_bool v invert with Some b => (set_bool f x b, true) | None => (f, false) end
  | Some (A_set_neg x) =>
      match as_bool v invert with Some b => (set_bool f x (negb b), true) | None => (f, false) end
  | Some A_ignore_errors =>
      match as_bool v invert with
      | Some b => (set_ignore_errors f (if b then Some IgnoreErrorsInConfigFile else None), true)
      | None => (f, false)
      end
  | Some A_nothing => (f, true)
  | Some A_fail => (f, false)
  | None => (f, negb error_if_unrecognized)
  end.

(** [str::trim] restricted to ASCII white space. *)
Definition is_space (a : ascii) : bool :=
  let n := nat_of_ascii a in Nat.eqb n 32 || (Nat.leb 9 n && Nat.leb n 13).
Fixpoint trim_start (s : string) : string :=
  match s with
  | String a r => if is_space a then trim_start r else s
  | EmptyString => EmptyString
  end.
Fixpoint trim_end (s : string) : string :=
  match s with
  | String a r => match trim_end r with
                  | EmptyString => if is_space a then EmptyString else String a EmptyString
                  | r' => String a r'
                  end
  | EmptyString => EmptyString
  end.
Definition trim (s : string) : string := trim_end (trim_start s).

(** [str::strip_suffix] of a character. *)
Fixpoint strip_suffix_char (c : ascii) (s : string) : option string :=
  match s with
  | EmptyString => None
  | String a EmptyString => if Ascii.eqb a c then Some EmptyString else None
  | String a r => match strip_suffix_char c r with Some r' => Some (String a r') | None => None end
  end.

(** crates/config/src/lib.rs:1151-1157 [split_and_trim] with the single separator [,]. *)
Definition split_and_trim (s : string) : list string :=
  let s := trim s in
  let s := match strip_suffix_char ","%char s with Some s' => s' | None => s end in
  map trim (split_on ","%char s).

(** The strings of an array up to the first element that is not a string, and whether there was none. *)
Fixpoint take_strings (l : list (option string)) : list string * bool :=
  match l with
  | [] => ([], true)
  | Some s :: r => let (l', ok) := take_strings r in (s :: l', ok)
  | None :: _ => ([], false)
  end.

(** The closure [add_list_of_str] of crates/config/src/lib.rs:1006-1067 [set_flag]. *)
Definition add_list_of_str (f : flags) (x : list_field) (v : value) (invert : bool) : flags * bool :=
  if invert then (f, false)
  else match v with
       | T_array l => let (l', ok) := take_strings l in (add_list f x l', ok)
       | T_string s => (add_list f x [s], true)
       | Ini s => (add_list f x (split_and_trim s), true)
       | _ => (f, false)
       end.

(** crates/config/src/lib.rs:1243-1270 [add_excludes]; every regular expression is assumed to be valid (simplification). *)
Definition add_excludes (f : flags) (v : value) : flags * bool :=
  match v with
  | T_array l => let (l', ok) := take_strings l in (add_exclude f l', ok)
  | T_string s | Ini s => (add_exclude f [s], true)
  | _ => (f, false)
  end.

(** crates/config/src/lib.rs:1006-1067 [set_flag]. *)
Definition set_flag (f : flags) (name : string) (v : value) (error_if_unrecognized : bool) : flags * bool :=
  let '(invert, option_name) := maybe_invert name in
  if String.eqb option_name "exclude" then if invert then (f, false) else add_excludes f v
  else if String.eqb option_name "always_true" then add_list_of_str f L_always_true v invert
  else if String.eqb option_name "always_false" then add_list_of_str f L_always_false v invert
  else if String.eqb option_name "enable_error_code" then add_list_of_str f L_enabled v invert
  else if String.eqb option_name "disable_error_code" then add_list_of_str f L_disabled v invert
  else if String.eqb option_name "strict" then (f, false)
  else set_bool_init_flags f option_name v invert error_if_unrecognized.

(** crates/config/src/lib.rs:649-668 [enable_all_strict_flags]. *)
Definition enable_all_strict_flags (f : flags) : flags :=
  let on := [F_disallow_any_generics; F_disallow_subclassing_any; F_disallow_untyped_calls;
             F_disallow_untyped_defs; F_disallow_incomplete_defs; F_check_untyped_defs;
             F_disallow_untyped_decorators; F_warn_redundant_casts; F_warn_return_any;
             F_no_implicit_reexport; F_strict_equality; F_extra_checks; F_untyped_strict_optional] in
  let off := [F_allow_untyped_globals; F_allow_incomplete_generics] in
  fold_left (fun f x => set_bool f x false) off (fold_left (fun f x => set_bool f x true) on f).

(** crates/config/src/lib.rs:884-888 [struct OverrideConfig]. *)
Record section := mk_section { s_module : override_path; s_config : list (string * value) }.

(** First loop of crates/config/src/lib.rs:891-901 [apply_to_flags]; [None] is the error. *)
Fixpoint apply_strict (cfg : list (string * value)) (f : flags) : option flags :=
  match cfg with
  | [] => Some f
  | (k, v) :: r =>
      if String.eqb k "strict" then
        match as_bool v false with
        | Some b => apply_strict r (if b then enable_all_strict_flags f else f)
        | None => None
        end
      else apply_strict r f
  end.

(** Second loop of crates/config/src/lib.rs:891-901 [apply_to_flags]. *)
Fixpoint apply_keys (cfg : list (string * value)) (f : flags) : option flags :=
  match cfg with
  | [] => Some f
  | (k, v) :: r =>
      match set_flag f k v false with
      | (f', true) => apply_keys r f'
      | (_, false) => None
      end
  end.

(** crates/config/src/lib.rs:891-901 [apply_to_flags]. *)
Definition apply_to_flags (s : section) (f : flags) : option flags :=
  match apply_strict (s_config s) f with
  | Some f' => apply_keys (s_config s) f'
  | None => None
  end.

(** [slice::sort_by_key], the stable sort of the standard library, as insertion sort. *)
Fixpoint insert_by_kind (s : section) (l : list section) : list section :=
  match l with
  | [] => [s]
  | t :: r => if kind_leb (o_kind (s_module s)) (o_kind (s_module t)) then s :: l
              else t :: insert_by_kind s r
  end.

(** crates/config/src/lib.rs:539-543 [order_overrides_for_priority]. *)
Definition order_overrides_for_priority (l : list section) : list section :=
  fold_right insert_by_kind [] l.

(** crates/zuban_python/src/file/python_file.rs:989-1005, the overrides part of [info_from_directives]: [None] is the panic
    of [expect]. *)
Fixpoint apply_overrides (l : list section) (name : string) (parents : list string) (f : flags) : option flags :=
  match l with
  | [] => Some f
  | s :: r =>
      if matches_file_path (s_module s) name parents
      then match apply_to_flags s f with
           | Some f' => apply_overrides r name parents f'
           | None => None
           end
      else apply_overrides r name parents f
  end.

(** The flags of a file: sections ordered when the configuration is loaded, then applied. *)
Definition flags_for_module (sections : list section) (name : string) (parents : list string) (base : flags)
  : option flags :=
  apply_overrides (order_overrides_for_priority sections) name parents base.

(** [str::strip_suffix]. *)
Fixpoint strip_suffix (suf s : string) : option string :=
  if String.eqb s suf then Some EmptyString
  else match s with
       | EmptyString => None
       | String a r => match strip_suffix suf r with Some r' => Some (String a r') | None => None end
       end.

Definition strip_suffix_or (suf s : string) : string :=
  match strip_suffix suf s with Some s' => s' | None => s end.

(** crates/zuban_python/src/file/python_file.rs:960-978 [name_and_parent_dir] with [skip_stubs = true], as called by
    [info_from_directives]: the file name and the enclosing directories, innermost first. *)
Definition name_and_parent_dir (file : string) (dirs : list string) : string * list string :=
  let name := match strip_suffix ".py" file with
              | Some s => s
              | None => strip_suffix_or ".pyi" file
              end in
  match dirs with
  | dir :: up => if String.eqb name "__init__" then (strip_suffix_or "-stubs" dir, up) else (name, dirs)
  | [] => (name, dirs)
  end.

(** The sections that apply to a file, python_file.rs:989-999. *)
Definition matches_file (p : override_path) (file : string) (dirs : list string) : bool :=
  let '(name, parents) := name_and_parent_dir file dirs in matches_file_path p name parents.
