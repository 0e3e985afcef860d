(** Model of the choice of the mode, the command line switches, Python versions and pyvenv.cfg. *)
From Coq Require Import String Ascii List Bool NArith.
From Verif Require Import OverrideModel.
Import ListNotations.
Open Scope string_scope.

(** ** Modes *)

(** crates/config/src/lib.rs:53-56 [enum Mode]. *)
Inductive run_mode := M_default | M_mypy.
(** crates/config/src/lib.rs:65-69 [enum ModeChoice]. *)
Inductive mode_choice := Explicit (m : run_mode) | Implicit (m : run_mode) | Auto.
(** crates/config/src/lib.rs:73-77 [enum ModeChoiceArg]. *)
Inductive mode_arg := Arg_default | Arg_mypy | Arg_auto.

(** crates/config/src/lib.rs:79-87, [From<ModeChoiceArg> for ModeChoice]. *)
Definition choice_of_arg (a : mode_arg) : mode_choice :=
  match a with Arg_default => Explicit M_default | Arg_mypy => Explicit M_mypy | Arg_auto => Auto end.

(** crates/config/src/lib.rs:89-96, [From<ModeChoice> for Mode]. *)
Definition mode_of_choice (c : mode_choice) : run_mode :=
  match c with Explicit m | Implicit m => m | Auto => M_default end.

(** The parts of a pyproject.toml that matter for the mode: the table [tool.zuban] with its entry [mode] (a value that is
    no mode is [Bad_mode]), and whether there is a [tool.mypy].  Everything else in the files is assumed to be valid. *)
Inductive mode_entry := No_mode | Mode_is (m : run_mode) | Bad_mode.
Record pyproject := mk_pyproject { tool_zuban : option mode_entry; tool_mypy : bool }.

(** crates/config/src/lib.rs:501-529 [get_zuban_config_and_apply_mode]; [None] is the error. *)
Definition apply_mode (d : pyproject) (mode : mode_choice) : option mode_choice :=
  let explicit := match mode with Explicit _ => true | _ => false end in
  let otherwise :=
    match mode with
    | Auto => match tool_zuban d with
              | Some _ => Implicit M_default
              | None => if tool_mypy d then Implicit M_mypy else Auto
              end
    | _ => mode
    end in
  match explicit, tool_zuban d with
  | false, Some (Mode_is m) => Some (Explicit m)
  | false, Some Bad_mode => None
  | _, _ => Some otherwise
  end.

(** Configuration files that were given explicitly or found: an ini file is described by whether it has a section
    [mypy] or [mypy-…]; the options are described by the mode whose preset they are built on. *)
Inductive config_file := Toml_file (d : pyproject) | Ini_file (relevant : bool) | Other_file (relevant : bool).

(** crates/config/src/lib.rs:304-352 [from_mypy_ini]. *)
Definition from_mypy_ini (relevant : bool) (mode : mode_choice) : option mode_choice :=
  if relevant then Some mode else None.

(** crates/config/src/lib.rs:388-412 [apply_pyproject_toml_mypy_part]. *)
Definition pyproject_mypy_part (d : pyproject) (mode : mode_choice) : option mode_choice :=
  if tool_mypy d then Some mode else None.

(** crates/config/src/lib.rs:354-386 [from_pyproject_toml_only]; outer [None] is the error. *)
Definition from_pyproject_toml_only (d : pyproject) (mode : mode_choice) : option (option mode_choice) :=
  match apply_mode d mode with
  | None => None
  | Some mode =>
      let result := pyproject_mypy_part d mode in
      Some (match tool_zuban d with
            | Some _ => Some (match result with Some r => r | None => mode end)
            | None => result
            end)
  end.

(** crates/config/src/searcher.rs:29-75 [find_config] with a configuration file; an [Ini_file] ends in [.ini], an
    [Other_file] in neither [.ini] nor [.toml]. *)
Definition find_config_file (f : config_file) (mode0 : mode_choice) : option run_mode :=
  let mode := match mode0, f with Auto, Ini_file _ => Explicit M_mypy | _, _ => mode0 end in
  let result := match f with
                | Toml_file d => from_pyproject_toml_only d mode
                | Ini_file r | Other_file r => Some (from_mypy_ini r mode)
                end in
  match result with
  | None => None
  | Some r => Some (mode_of_choice (match r with Some m => m | None => mode end))
  end.

(** A directory: its pyproject.toml, and for mypy.ini, .mypy.ini and setup.cfg whether there is a relevant section. *)
Record directory := mk_dir {
  d_pyproject : option pyproject;
  d_mypy_ini : option bool;
  d_dot_mypy_ini : option bool;
  d_setup_cfg : option bool
}.

(** One round of the loop of crates/config/src/searcher.rs:108-198 [find_mypy_config_file_in_dir] for one of the ini files: the
    mode afterwards and the options if the loop ends. *)
Definition try_ini (file : option bool) (always : bool) (mode : mode_choice) : mode_choice * option mode_choice :=
  match file with
  | None => (mode, None)
  | Some relevant =>
      let mode := match mode with Auto => Implicit M_mypy | _ => mode end in
      (mode, match from_mypy_ini relevant mode with
             | Some r => Some r
             | None => if always then Some mode else None
             end)
  end.

(** The rounds for the ini files in the order of [CONFIG_NAMES]. *)
Fixpoint try_inis (files : list (option bool * bool)) (mode : mode_choice) : mode_choice * option mode_choice :=
  match files with
  | [] => (mode, None)
  | (f, always) :: r =>
      match try_ini f always mode with
      | (mode, Some res) => (mode, Some res)
      | (mode, None) => try_inis r mode
      end
  end.

(** crates/config/src/searcher.rs:108-198 [find_mypy_config_file_in_dir]; outer [None] is the error, inner [None] means that
    nothing was found. *)
Definition find_in_dir (d : directory) (mode : mode_choice) : option (option run_mode) :=
  let inis := [(d_mypy_ini d, true); (d_dot_mypy_ini d, true); (d_setup_cfg d, false)] in
  match d_pyproject d with
  | Some p =>
      match apply_mode p mode with
      | None => None
      | Some mode =>
          match pyproject_mypy_part p mode with
          | Some r => Some (Some (mode_of_choice r))
          | None =>
              match try_inis inis mode with
              | (_, Some r) => Some (Some (mode_of_choice r))
              | (mode, None) => Some (Some (mode_of_choice mode))
              end
          end
      end
  | None =>
      match try_inis inis mode with
      | (_, Some r) => Some (Some (mode_of_choice r))
      | (_, None) => Some None
      end
  end.

(** crates/config/src/searcher.rs:29-75 [find_config] without a configuration file: the directories from the current one to
    the root. *)
Fixpoint find_config (dirs : list directory) (mode : mode_choice) : option run_mode :=
  match dirs with
  | [] => Some (mode_of_choice mode)
  | d :: up => match find_in_dir d mode with
               | None => None
               | Some (Some m) => Some m
               | Some None => find_config up mode
               end
  end.

(** crates/zmypy/src/lib.rs:84-100, the choice handed to [find_config] by the command line. *)
Definition cli_choice (arg : option mode_arg) : mode_choice :=
  match arg with Some a => choice_of_arg a | None => Implicit M_default end.

(** ** Command line switches *)

(** What the boolean switches write to: flags, the diagnostics configuration and the settings. *)
Inductive target :=
| T_flag (x : field)
| T_show_column_numbers | T_show_error_end | T_show_error_codes | T_pretty | T_error_summary
| T_exclude_gitignore | T_explicit_package_bases.
Definition target_eq_dec : forall a b : target, {a = b} + {a <> b}.
Proof. decide equality; apply field_eq_dec. Defined.

Definition options := target -> bool.
Definition put (o : options) (t : target) (b : bool) : options := fun u => if target_eq_dec t u then b else o u.

(** The switches given, by name. *)
Definition cli := string -> bool.

(** crates/cli_args/src/lib.rs:380-389, the macro [apply!]. *)
Definition apply_pair (c : cli) (p : target * (string * string)) (o : options) : options :=
  let '(t, (attr, inverse)) := p in
  let o := if c attr then put o t true else o in
  if c inverse then put o t false else o.

(** crates/config/src/lib.rs:649-668 [enable_all_strict_flags] on the switches' targets. *)
Definition strict_on (o : options) : options :=
  fun t => match t with
           | T_flag x => bools (enable_all_strict_flags (mk_flags (fun y => o (T_flag y)) None (fun _ => []) [])) x
           | _ => o t
           end.

(** The uses of [apply!] in crates/cli_args/src/lib.rs:396-440, in order, with the two single switches and the two last
    assignments of [allow_redefinition]; a single switch has the empty name as its inverse. *)
Definition pairs : list (target * (string * string)) :=
  [ (T_flag F_strict_optional, ("strict_optional", "no_strict_optional"));
    (T_flag F_untyped_strict_optional, ("untyped_strict_optional", "no_untyped_strict_optional"));
    (T_flag F_strict_equality, ("strict_equality", "no_strict_equality"));
    (T_flag F_implicit_optional, ("implicit_optional", "no_implicit_optional"));
    (T_flag F_check_untyped_defs, ("check_untyped_defs", "no_check_untyped_defs"));
    (T_flag F_ignore_missing_imports, ("ignore_missing_imports", ""));
    (T_flag F_follow_untyped_imports, ("follow_untyped_imports", ""));
    (T_flag F_disallow_untyped_defs, ("disallow_untyped_defs", "allow_untyped_defs"));
    (T_flag F_disallow_untyped_calls, ("disallow_untyped_calls", "allow_untyped_calls"));
    (T_flag F_disallow_untyped_decorators, ("disallow_untyped_decorators", "allow_untyped_decorators"));
    (T_flag F_disallow_any_generics, ("disallow_any_generics", "allow_any_generics"));
    (T_flag F_disallow_any_decorated, ("disallow_any_decorated", "allow_any_decorated"));
    (T_flag F_disallow_any_explicit, ("disallow_any_explicit", "allow_any_explicit"));
    (T_flag F_disallow_any_unimported, ("disallow_any_unimported", "allow_any_unimported"));
    (T_flag F_disallow_any_expr, ("disallow_any_expr", "allow_any_expr"));
    (T_flag F_disallow_subclassing_any, ("disallow_subclassing_any", "allow_subclassing_any"));
    (T_flag F_disallow_incomplete_defs, ("disallow_incomplete_defs", "allow_incomplete_defs"));
    (T_flag F_allow_untyped_globals, ("allow_untyped_globals", "disallow_untyped_globals"));
    (T_flag F_warn_unreachable, ("warn_unreachable", "no_warn_unreachable"));
    (T_flag F_warn_redundant_casts, ("warn_redundant_casts", "no_warn_redundant_casts"));
    (T_flag F_warn_return_any, ("warn_return_any", "no_warn_return_any"));
    (T_flag F_warn_no_return, ("warn_no_return", "no_warn_no_return"));
    (T_flag F_no_implicit_reexport, ("no_implicit_reexport", "implicit_reexport"));
    (T_flag F_extra_checks, ("extra_checks", "no_extra_checks"));
    (T_flag F_allow_incomplete_generics, ("allow_incomplete_generics", "disallow_incomplete_generics"));
    (T_flag F_check_untyped_overrides, ("check_untyped_overrides", "no_check_untyped_overrides"));
    (T_show_column_numbers, ("show_column_numbers", "hide_column_numbers"));
    (T_show_error_end, ("show_error_end", "hide_error_end"));
    (T_show_error_codes, ("show_error_codes", "hide_error_codes"));
    (T_pretty, ("pretty", "no_pretty"));
    (T_error_summary, ("error_summary", "no_error_summary"));
    (T_exclude_gitignore, ("exclude_gitignore", "no_exclude_gitignore"));
    (T_explicit_package_bases, ("explicit_package_bases", "no_explicit_package_bases"));
    (T_flag F_allow_redefinition, ("allow_redefinition", "disallow_redefinition"));
    (T_flag F_allow_redefinition, ("allow_redefinition_new", "disallow_redefinition_new")) ].

(** crates/cli_args/src/lib.rs:371-496 [apply_mypy_flags], the boolean switches. *)
Definition apply_mypy_flags (c : cli) (o : options) : options :=
  let o := if c "strict" then strict_on o else o in
  let o := if c "strict_bytes"
           then put (put o (T_flag F_disable_bytearray_promotion) true) (T_flag F_disable_memoryview_promotion) true
           else o in
  fold_left (fun o p => apply_pair c p o) pairs o.

(** ** Python versions *)

(** crates/config/src/lib.rs:699-702 [struct PythonVersion]. *)
Record python_version := mk_version { major : N; minor : N }.

(** crates/config/src/lib.rs:709-711 [at_least_3_dot]. *)
Definition at_least_3_dot (v : python_version) (m : N) : bool := (3 <=? major v)%N && (m <=? minor v)%N.

(** The derived [PartialOrd]: lexicographic. *)
Definition version_leb (v w : python_version) : bool :=
  (major v <? major w)%N || ((major v =? major w)%N && (minor v <=? minor w)%N).

(** [str::split_once] of a character. *)
Fixpoint split_once (c : ascii) (s : string) : option (string * string) :=
  match s with
  | EmptyString => None
  | String a r => if Ascii.eqb a c then Some (EmptyString, r)
                  else match split_once c r with Some (x, y) => Some (String a x, y) | None => None end
  end.

Definition digit (a : ascii) : option N :=
  let n := N_of_ascii a in if (48 <=? n)%N && (n <=? 57)%N then Some (n - 48)%N else None.

Fixpoint parse_digits (acc : N) (s : string) : option N :=
  match s with
  | EmptyString => Some acc
  | String a r => match digit a with Some d => parse_digits (acc * 10 + d)%N r | None => None end
  end.

(** [<usize as FromStr>::from_str]: an optional plus sign, at least one digit, no overflow of 64 bits. *)
Definition parse_usize (s : string) : option N :=
  let s := match s with String "+" (String a r) => String a r | _ => s end in
  match s with
  | EmptyString => None
  | _ => match parse_digits 0 s with
         | Some n => if (n <? 2 ^ 64)%N then Some n else None
         | None => None
         end
  end.

(** crates/config/src/lib.rs:717-733 [from_str]. *)
Definition parse_version (s : string) : option python_version :=
  match split_once "." s with
  | None => None
  | Some (major, minor) =>
      let minor := match split_once "." minor with Some (m, _) => m | None => minor end in
      match parse_usize major, parse_usize minor with
      | Some a, Some b => Some (mk_version a b)
      | _, _ => None
      end
  end.

(** ** pyvenv.cfg *)

(** [str::lines]: the lines without their line feeds, and without a carriage return before the line feed. *)
Fixpoint strip_cr (s : string) : string :=
  match s with
  | EmptyString => EmptyString
  | String "013" EmptyString => EmptyString
  | String a r => String a (strip_cr r)
  end.
Fixpoint to_lines (pieces : list string) : list string :=
  match pieces with
  | [] => []
  | [p] => match p with EmptyString => [] | _ => [p] end
  | p :: r => strip_cr p :: to_lines r
  end.
Definition lines (s : string) : list string := to_lines (split_on "010" s).

(** The loop of crates/zuban_python/src/sys_path.rs:411-430 [include_system_site_packages_in_pyvenv_cfg]. *)
Fixpoint scan_cfg (ls : list string) : bool :=
  match ls with
  | [] => true
  | l :: r =>
      match split_once "=" l with
      | Some (key, v) => if String.eqb (trim key) "include-system-site-packages"
                         then String.eqb (lower v) "true" else scan_cfg r
      | None => scan_cfg r
      end
  end.

(** crates/zuban_python/src/sys_path.rs:411-430 [include_system_site_packages_in_pyvenv_cfg]; [None] is an unreadable file.  White
    space and letter case outside ASCII are not modelled. *)
Definition include_system_site_packages (content : option string) : bool :=
  match content with
  | Some c => scan_cfg (lines c)
  | None => false
  end.
