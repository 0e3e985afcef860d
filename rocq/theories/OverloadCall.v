(** Calls of overloaded functions with the binding of arguments (CallModel) and the types of OverloadTypes. *)
From Coq Require Import List NArith Arith Bool.
From Verif Require Import CallModel OverloadModel OverloadTypes.
Import ListNotations.

(** A variant without type variables *)
Record variant : Type := mk_variant { v_params : list (param type); v_return : type; v_guard : bool }.
Notation argument := (arg type).

(** crates/zuban_python/src/arguments.rs [ArgKind::Overridden] *)
Definition override (a : argument) (t : type) : argument := mk_arg (a_index a) (Overridden (a_kind a)) (a_star_star a) t.

Section Call.
(** Is a value of the second type allowed for a parameter of the first?  The rest of the answer about a
    variant is arbitrary: the arguments that were compared with an Any, whether a [*args] of the call is
    used up, whether a mismatch is similar, and errors in the arguments. *)
Variable fits : type -> type -> bool.
Variable any_arguments : variant -> list argument -> option (list (nat * type)).
Variables (handled similar had_error : variant -> list argument -> bool).
Variable is_equal_type : type -> type -> bool.
Variable simplified_union : type -> type -> type.
Variable mypy_compatible : bool.

(** crates/zuban_python/src/matching/matcher/utils.rs:435-464 [calc_callable_type_vars]; nothing depends on the expected type *)
Definition match_signature (c : context type) (v : variant) (args : list argument) : signature_match type * bool :=
  (if match_arguments fits (v_params v) args then
     match any_arguments v args with Some l => TrueWithAny l | None => True_ (handled v args) end
   else False_ (similar v args),
   had_error v args).

(** crates/zuban_python/src/type_helpers/overload.rs:54-308 [find_matching_function] *)
Definition resolve : context type -> list variant -> list argument -> overload_result type * list issue :=
  find_matching_function type argument type variant match_signature v_return v_guard type_eqb is_equal_type
    (fun _ a => Some (a_value a)) maybe_union_like_with_materializations override Any Never simplified_union
    (fun _ v _ => v_return v) (fun a => should_do_union_math (a_value a)) mypy_compatible.

(** The type of the call, crates/zuban_python/src/type_helpers/overload.rs:559-650 [execute_internal] *)
Definition result_type (vs : list variant) (r : overload_result type) : option type :=
  match r with
  | Single i => option_map v_return (nth_error vs i)
  | OverloadModel.Union t => Some t
  | NotFound => fallback is_equal_type mypy_compatible (map v_return vs)
  | Panicked => None
  end.

End Call.
