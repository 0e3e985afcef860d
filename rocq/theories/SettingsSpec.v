(** What the settings should be, independent of the functions of the model. *)
From Coq Require Import String Ascii List Bool NArith.
From Verif Require Import OverrideModel SettingsModel.
Import ListNotations.
Open Scope string_scope.

(** ** Modes: which preset a directory asks for.  A configuration for the checker itself decides by its entry [mode] and
    else stands for the default preset; otherwise a configuration for mypy stands for the mypy preset. *)
Definition has_mypy_config (d : directory) : bool :=
  match d_pyproject d with Some p => tool_mypy p | None => false end
  || match d_mypy_ini d with Some _ => true | None => false end
  || match d_dot_mypy_ini d with Some _ => true | None => false end
  || match d_setup_cfg d with Some true => true | _ => false end.

Definition zuban_config (d : directory) : option mode_entry :=
  match d_pyproject d with Some p => tool_zuban p | None => None end.

(** A directory is the project directory if it has a pyproject.toml or a configuration for mypy. *)
Definition is_project (d : directory) : bool :=
  match d_pyproject d with Some _ => true | None => false end || has_mypy_config d.

(** The preset of a project directory when the user did not choose. *)
Definition preset_of (d : directory) : run_mode :=
  match zuban_config d with
  | Some (Mode_is m) => m
  | Some _ => M_default
  | None => if has_mypy_config d then M_mypy else M_default
  end.

(** The innermost project directory. *)
Definition project (dirs : list directory) : option directory := find is_project dirs.

(** ** Switches: the documented pairs, and what [--strict] is documented to enable. *)
Definition documented : list (target * (string * string)) :=
  [ (T_flag F_disallow_any_unimported, ("disallow_any_unimported", "allow_any_unimported"));
    (T_flag F_disallow_any_expr, ("disallow_any_expr", "allow_any_expr"));
    (T_flag F_disallow_any_decorated, ("disallow_any_decorated", "allow_any_decorated"));
    (T_flag F_disallow_any_explicit, ("disallow_any_explicit", "allow_any_explicit"));
    (T_flag F_disallow_any_generics, ("disallow_any_generics", "allow_any_generics"));
    (T_flag F_disallow_subclassing_any, ("disallow_subclassing_any", "allow_subclassing_any"));
    (T_flag F_disallow_untyped_calls, ("disallow_untyped_calls", "allow_untyped_calls"));
    (T_flag F_disallow_untyped_defs, ("disallow_untyped_defs", "allow_untyped_defs"));
    (T_flag F_disallow_incomplete_defs, ("disallow_incomplete_defs", "allow_incomplete_defs"));
    (T_flag F_check_untyped_defs, ("check_untyped_defs", "no_check_untyped_defs"));
    (T_flag F_disallow_untyped_decorators, ("disallow_untyped_decorators", "allow_untyped_decorators"));
    (T_flag F_implicit_optional, ("implicit_optional", "no_implicit_optional"));
    (T_flag F_strict_optional, ("strict_optional", "no_strict_optional"));
    (T_flag F_untyped_strict_optional, ("untyped_strict_optional", "no_untyped_strict_optional"));
    (T_flag F_warn_redundant_casts, ("warn_redundant_casts", "no_warn_redundant_casts"));
    (T_flag F_warn_no_return, ("warn_no_return", "no_warn_no_return"));
    (T_flag F_warn_return_any, ("warn_return_any", "no_warn_return_any"));
    (T_flag F_warn_unreachable, ("warn_unreachable", "no_warn_unreachable"));
    (T_flag F_allow_untyped_globals, ("allow_untyped_globals", "disallow_untyped_globals"));
    (T_flag F_no_implicit_reexport, ("no_implicit_reexport", "implicit_reexport"));
    (T_flag F_strict_equality, ("strict_equality", "no_strict_equality"));
    (T_flag F_extra_checks, ("extra_checks", "no_extra_checks"));
    (T_flag F_allow_incomplete_generics, ("allow_incomplete_generics", "disallow_incomplete_generics"));
    (T_flag F_check_untyped_overrides, ("check_untyped_overrides", "no_check_untyped_overrides"));
    (T_show_column_numbers, ("show_column_numbers", "hide_column_numbers"));
    (T_show_error_end, ("show_error_end", "hide_error_end"));
    (T_show_error_codes, ("show_error_codes", "hide_error_codes"));
    (T_pretty, ("pretty", "no_pretty"));
    (T_error_summary, ("error_summary", "no_error_summary"));
    (T_exclude_gitignore, ("exclude_gitignore", "no_exclude_gitignore"));
    (T_explicit_package_bases, ("explicit_package_bases", "no_explicit_package_bases")) ].

Definition strict_enables : list field :=
  [ F_disallow_any_generics; F_disallow_subclassing_any; F_disallow_untyped_calls; F_disallow_untyped_defs;
    F_disallow_incomplete_defs; F_check_untyped_defs; F_disallow_untyped_decorators; F_warn_redundant_casts;
    F_warn_return_any; F_no_implicit_reexport; F_strict_equality; F_extra_checks ].
(** What else [--strict] changes, for the switches that mypy does not have. *)
Definition strict_own : list (field * bool) :=
  [ (F_allow_untyped_globals, false); (F_allow_incomplete_generics, false); (F_untyped_strict_optional, true) ].

(** The value before the single switches are looked at. *)
Definition strict_value (t : target) : option bool :=
  match t with
  | T_flag x =>
      if existsb (fun y => if field_eq_dec x y then true else false) strict_enables then Some true
      else match find (fun p => if field_eq_dec x (fst p) then true else false) strict_own with
           | Some p => Some (snd p)
           | None => None
           end
  | _ => None
  end.

(** ** Decimal numerals *)
Fixpoint show_aux (fuel : nat) (n : N) (acc : string) : string :=
  match fuel with
  | O => acc
  | S k => let acc := String (ascii_of_N (48 + n mod 10)) acc in
           if (n <? 10)%N then acc else show_aux k (n / 10) acc
  end.
Definition show (n : N) : string := show_aux (S (N.to_nat n)) n "".

(** ** pyvenv.cfg as Python's [site] module reads it: keys and values are stripped and compared without case, the last
    definition counts, and the default is true. *)
Definition cfg_entry (line : string) : option (string * string) :=
  match split_once "=" line with
  | Some (key, v) => Some (lower (trim key), lower (trim v))
  | None => None
  end.
Definition site_py (content : string) : bool :=
  fold_left (fun acc line => match cfg_entry line with
                             | Some (k, v) => if String.eqb k "include-system-site-packages" then String.eqb v "true" else acc
                             | None => acc
                             end) (lines content) true.
