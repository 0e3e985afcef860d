(** Which parameter receives which argument of a call: crates/zuban_python/src/params.rs [InferrableParamIterator]
    and the part of crates/zuban_python/src/matching/matcher/utils.rs [match_arguments_against_params] that
    decides whether a call is accepted.

    Not modelled: [*args: *Ts], [*args: P.args], [**kwargs: P.kwargs] and [**kwargs: Unpack[TD]]
    parameters, and arguments that are an unpacked tuple or a ParamSpec.  Types and the check
    of one argument against one type are arbitrary. *)
From Coq Require Import List NArith Arith Bool.
Import ListNotations.

(** crates/parsa_python_cst/src/lib.rs:2794-2800 [ParamKind] *)
Inductive kind : Type := PositionalOnly | PositionalOrKeyword | Star | KeywordOnly | StarStar.

Definition kind_eqb (a b : kind) : bool :=
  match a, b with
  | PositionalOnly, PositionalOnly | PositionalOrKeyword, PositionalOrKeyword | Star, Star
  | KeywordOnly, KeywordOnly | StarStar, StarStar => true
  | _, _ => false
  end.

Section Call.
(** Types, values (what is known of an argument), and the check of a value against a type. *)
Variables (ty val : Type) (fits : ty -> val -> bool).

(** crates/zuban_python/src/type_/callable.rs:129-135 [CallableParam] with 39-45 [ParamType]: the kind
    and the type (the Option of the trait Param: without one every argument is accepted). Names are numbers. *)
Record param : Type := mk_param { p_kind : kind; p_name : option N; p_default : bool; p_type : option ty }.

(** crates/zuban_python/src/arguments.rs:408-444 [ArgKind]: [Positional] stands for Positional, Comprehension,
    InferredWithCustomAddIssue and Inferred of one positional value; [Keyword] for Keyword and for
    Inferred of one named value; the two others are Inferred with [in_args_or_kwargs_and_arbitrary_len]. *)
Inductive arg_kind : Type :=
| Positional
| Keyword (n : N)
| ManyPositional
| ManyKeywords
| Overridden (original : arg_kind).

(** crates/zuban_python/src/arguments.rs:488-491 [Arg]; [a_star_star]: the argument is written with two stars. *)
Record arg : Type := mk_arg { a_index : nat; a_kind : arg_kind; a_star_star : bool; a_value : val }.

(** crates/zuban_python/src/arguments.rs:494-503 [in_args_or_kwargs_and_arbitrary_len] *)
Definition arbitrary_len (a : arg) : bool :=
  match a_kind a with ManyPositional | ManyKeywords => true | _ => false end.
(** crates/zuban_python/src/arguments.rs:505-514 [is_arbitrary_kwargs] *)
Definition is_arbitrary_kwargs (a : arg) : bool :=
  match a_kind a with ManyKeywords => true | _ => false end.
(** crates/zuban_python/src/arguments.rs:663-672 [is_keyword_argument] *)
Definition is_keyword_argument (a : arg) : bool :=
  match a_kind a with Keyword _ | ManyKeywords => true | _ => false end.
(** crates/zuban_python/src/arguments.rs:674-683 [keyword_name] *)
Definition keyword_name (a : arg) : option N :=
  match a_kind a with Keyword n => Some n | _ => None end.
(** crates/zuban_python/src/arguments.rs:692-707 [can_be_used_to_match_positional_param] *)
Fixpoint positional_kind (k : arg_kind) : bool :=
  match k with Positional | ManyPositional => true | Overridden o => positional_kind o | _ => false end.
Definition can_be_used_to_match_positional_param (a : arg) : bool := positional_kind (a_kind a).

(** A reference to a parameter: its place among the parameters of the function. *)
Definition ref : Type := (nat * param)%type.

(** crates/zuban_python/src/params.rs:1053-1064 [InferrableParamIterator] without the fields for TypedDicts *)
Record state : Type := mk_state {
  arguments : list arg;
  current_arg : option arg;
  params : list ref;
  unused_keyword_arguments : list arg;
  current_starred_param : option ref;
  current_double_starred_param : option ref;
  too_many_positional_arguments : bool;
  arbitrary_length_handled : bool
}.

Definition set_arguments (x : list arg) (s : state) : state :=
  mk_state x (current_arg s) (params s) (unused_keyword_arguments s) (current_starred_param s)
    (current_double_starred_param s) (too_many_positional_arguments s) (arbitrary_length_handled s).
Definition set_current (x : option arg) (s : state) : state :=
  mk_state (arguments s) x (params s) (unused_keyword_arguments s) (current_starred_param s)
    (current_double_starred_param s) (too_many_positional_arguments s) (arbitrary_length_handled s).
Definition set_params (x : list ref) (s : state) : state :=
  mk_state (arguments s) (current_arg s) x (unused_keyword_arguments s) (current_starred_param s)
    (current_double_starred_param s) (too_many_positional_arguments s) (arbitrary_length_handled s).
Definition set_unused (x : list arg) (s : state) : state :=
  mk_state (arguments s) (current_arg s) (params s) x (current_starred_param s)
    (current_double_starred_param s) (too_many_positional_arguments s) (arbitrary_length_handled s).
Definition set_starred (x : option ref) (s : state) : state :=
  mk_state (arguments s) (current_arg s) (params s) (unused_keyword_arguments s) x
    (current_double_starred_param s) (too_many_positional_arguments s) (arbitrary_length_handled s).
Definition set_double_starred (x : option ref) (s : state) : state :=
  mk_state (arguments s) (current_arg s) (params s) (unused_keyword_arguments s) (current_starred_param s)
    x (too_many_positional_arguments s) (arbitrary_length_handled s).
Definition set_too_many (s : state) : state :=
  mk_state (arguments s) (current_arg s) (params s) (unused_keyword_arguments s) (current_starred_param s)
    (current_double_starred_param s) true (arbitrary_length_handled s).
Definition set_handled (x : bool) (s : state) : state :=
  mk_state (arguments s) (current_arg s) (params s) (unused_keyword_arguments s) (current_starred_param s)
    (current_double_starred_param s) (too_many_positional_arguments s) x.

(** [unused_keyword_arguments.push] *)
Definition push_unused (a : arg) (s : state) : state := set_unused (unused_keyword_arguments s ++ [a]) s.

(** crates/zuban_python/src/params.rs:1067-1080 [new] *)
Definition new (ps : list param) (args : list arg) : state :=
  mk_state args None (combine (seq 0 (length ps)) ps) [] None None false true.

(** The loop of next_arg over what follows [**kwargs]. *)
Fixpoint after_kwargs (args : list arg) : option (arg * list arg) :=
  match args with
  | [] => None
  | a :: r => if a_star_star a then after_kwargs r else Some (a, r)
  end.

(** crates/zuban_python/src/params.rs:1100-1119 [next_arg] *)
Definition next_arg (s : state) : option arg * state :=
  let taken :=
    match current_arg s with
    | Some a => Some (a, set_current None s)
    | None => match arguments s with a :: r => Some (a, set_arguments r s) | [] => None end
    end in
  match taken with
  | None => (None, s)
  | Some (a, s) =>
      if arbitrary_len a then
        let s := set_current (Some a) (set_handled false s) in
        if is_arbitrary_kwargs a then
          match after_kwargs (arguments s) with
          | Some (b, r) => (Some b, set_arguments r s)
          | None => (Some a, set_arguments [] s)
          end
        else (Some a, s)
      else (Some a, s)
  end.

(** More steps than arguments are never taken by the loops below. *)
Definition arguments_left (s : state) : nat :=
  S (S (length (arguments s))).

(** crates/zuban_python/src/params.rs:1121-1139 [maybe_exact_multi_arg] *)
Fixpoint maybe_exact_multi_arg (fuel : nat) (is_keyword_arg : bool) (s : state) : option arg * state :=
  match fuel with
  | O => (None, s)
  | S fuel =>
      match next_arg s with
      | (None, s) => (None, s)
      | (Some a, s) =>
          if Bool.eqb (is_keyword_argument a) is_keyword_arg then
            (Some a, set_current None (set_handled true s))
          else if is_keyword_arg && arbitrary_len a then
            maybe_exact_multi_arg fuel is_keyword_arg (set_current None s)
          else (None, set_current (Some a) s)
      end
  end.

(** What the iterator yields: crates/zuban_python/src/params.rs:1468-1471 [InferrableParam]; no argument is
    [ParamArgument::None]. *)
Definition item : Type := (ref * option arg)%type.

Definition name_is (n : option N) (k : N) : bool := match n with Some m => N.eqb m k | None => false end.

(** The closure [check_unused] of crates/zuban_python/src/params.rs:1150-1389 [next]: the first unused keyword
    argument with the name of the parameter, and the others. *)
Fixpoint check_unused (n : option N) (unused : list arg) : option (arg * list arg) :=
  match unused with
  | [] => None
  | a :: r =>
      if match keyword_name a with Some k => name_is n k | None => false end then Some (a, r)
      else match check_unused n r with Some (b, r') => Some (b, a :: r') | None => None end
  end.

(** The argument of one parameter: found, or not (then unused keyword arguments are tried). *)
Definition from_unused (p : ref) (s : state) : item * state :=
  match check_unused (p_name (snd p)) (unused_keyword_arguments s) with
  | Some (a, r) => ((p, Some a), set_unused r s)
  | None => ((p, None), s)
  end.

(** The arm PositionalOrKeyword of crates/zuban_python/src/params.rs:1150-1389 [next] *)
Fixpoint positional_or_keyword (fuel : nat) (p : ref) (s : state) : item * state :=
  match fuel with
  | O => ((p, None), s)
  | S fuel =>
      match next_arg s with
      | (None, s) => from_unused p s
      | (Some a, s) =>
          match keyword_name a with
          | Some k =>
              if name_is (p_name (snd p)) k then ((p, Some a), s)
              else positional_or_keyword fuel p (push_unused a s)
          | None =>
              if is_arbitrary_kwargs a then
                match check_unused (p_name (snd p)) (unused_keyword_arguments s) with
                | Some (b, r) => ((p, Some b), set_unused r s)
                | None => ((p, Some a), s)
                end
              else ((p, Some a), s)
          end
      end
  end.

(** The arm KeywordOnly of crates/zuban_python/src/params.rs:1150-1389 [next] *)
Fixpoint keyword_only (fuel : nat) (p : ref) (s : state) : item * state :=
  match fuel with
  | O => ((p, None), s)
  | S fuel =>
      match next_arg s with
      | (None, s) => from_unused p s
      | (Some a, s) =>
          if is_arbitrary_kwargs a then
            match check_unused (p_name (snd p)) (unused_keyword_arguments s) with
            | Some (b, r) => ((p, Some b), set_unused r s)
            | None => ((p, Some a), s)
            end
          else
            match keyword_name a with
            | Some k =>
                if name_is (p_name (snd p)) k then ((p, Some a), s)
                else keyword_only fuel p (push_unused a s)
            | None =>
                if arbitrary_len a then keyword_only fuel p (set_current None s)
                else keyword_only fuel p (set_too_many s)
            end
      end
  end.

(** The arm PositionalOnly of crates/zuban_python/src/params.rs:1150-1389 [next] *)
Definition positional_only (p : ref) (s : state) : item * state :=
  match next_arg s with
  | (None, s) => ((p, None), s)
  | (Some a, s) =>
      if can_be_used_to_match_positional_param a then ((p, Some a), s)
      else match keyword_name a with
           | Some _ => ((p, None), push_unused a s)
           | None => ((p, None), s)
           end
  end.

(** The first part of crates/zuban_python/src/params.rs:1150-1389 [next]: a further argument of [*args] *)
Definition starred (s : state) : option item * state :=
  match current_starred_param s with
  | Some p =>
      match maybe_exact_multi_arg (arguments_left s) false s with
      | (Some a, s) => (Some (p, Some a), s)
      | (None, s) => (None, set_starred None s)
      end
  | None => (None, s)
  end.

(** The second part: a further argument of [**kwargs]; [pop] takes the last unused keyword argument *)
Definition double_starred (s : state) : option item * state :=
  match current_double_starred_param s with
  | Some p =>
      match maybe_exact_multi_arg (arguments_left s) true s with
      | (Some a, s) => (Some (p, Some a), s)
      | (None, s) =>
          match rev (unused_keyword_arguments s) with
          | a :: r => (Some (p, Some a), set_unused (rev r) s)
          | [] => (None, set_double_starred None s)
          end
      end
  | None => (None, s)
  end.

(** crates/zuban_python/src/params.rs:1150-1389 [next]; [todo] are the parameters left ([params s], which
    is what gets smaller from call to call). *)
Fixpoint next (todo : list ref) (s : state) {struct todo} : option item * state :=
  match starred s with
  | (Some i, s) => (Some i, s)
  | (None, s) =>
      match double_starred s with
      | (Some i, s) => (Some i, s)
      | (None, s) =>
          match todo with
          | [] => (None, s)
          | p :: todo =>
              let s := set_params todo s in
              match p_kind (snd p) with
              | PositionalOrKeyword => let (i, s) := positional_or_keyword (arguments_left s) p s in (Some i, s)
              | KeywordOnly => let (i, s) := keyword_only (arguments_left s) p s in (Some i, s)
              | PositionalOnly => let (i, s) := positional_only p s in (Some i, s)
              | Star => next todo (set_starred (Some p) s)
              | StarStar => next todo (set_double_starred (Some p) s)
              end
          end
      end
  end.

(** All items, as the loop of match_arguments_against_params takes them (lambdas are only
    checked later; that changes the order, not the items). *)
Fixpoint items (fuel : nat) (s : state) : list item * state :=
  match fuel with
  | O => ([], s)
  | S fuel =>
      match next (params s) s with
      | (None, s) => ([], s)
      | (Some i, s) => let (l, s) := items fuel s in (i :: l, s)
      end
  end.

(** crates/zuban_python/src/params.rs:1082-1094 [has_unused_arguments] *)
Fixpoint has_unused_arguments (fuel : nat) (s : state) : bool :=
  match fuel with
  | O => false
  | S fuel =>
      match next_arg s with
      | (None, _) => false
      | (Some a, s) => if arbitrary_len a then has_unused_arguments fuel (set_current None s) else true
      end
  end.

(** One round of the loop of crates/zuban_python/src/matching/matcher/utils.rs:718-1254 [match_arguments_against_params] *)
Definition item_matches (i : item) : bool :=
  match snd i with
  | None => p_default (snd (fst i))
  | Some a => match p_type (snd (fst i)) with Some t => fits t (a_value a) | None => true end
  end.

(** The items of a call and the state in which the iterator ends. *)
Definition run (ps : list param) (args : list arg) : list item * state :=
  items (S (length ps + length args)) (new ps args).

(** crates/zuban_python/src/matching/matcher/utils.rs:718-1254 [match_arguments_against_params]: is the call accepted *)
Definition match_arguments (ps : list param) (args : list arg) : bool :=
  let (l, s) := run ps args in
  forallb item_matches l && negb (too_many_positional_arguments s) &&
  negb (has_unused_arguments (arguments_left s) s) &&
  match unused_keyword_arguments s with [] => true | _ => false end.

End Call.

Arguments mk_param {ty} p_kind p_name p_default p_type.
Arguments p_kind {ty} p.
Arguments p_name {ty} p.
Arguments p_default {ty} p.
Arguments p_type {ty} p.
Arguments mk_arg {val} a_index a_kind a_star_star a_value.
Arguments a_index {val} a.
Arguments a_kind {val} a.
Arguments a_star_star {val} a.
Arguments a_value {val} a.
Arguments arbitrary_len {val} a.
Arguments is_arbitrary_kwargs {val} a.
Arguments is_keyword_argument {val} a.
Arguments keyword_name {val} a.
Arguments can_be_used_to_match_positional_param {val} a.
Arguments mk_state {ty val}.
Arguments arguments {ty val} s.
Arguments current_arg {ty val} s.
Arguments params {ty val} s.
Arguments unused_keyword_arguments {ty val} s.
Arguments current_starred_param {ty val} s.
Arguments current_double_starred_param {ty val} s.
Arguments too_many_positional_arguments {ty val} s.
Arguments arbitrary_length_handled {ty val} s.
Arguments set_arguments {ty val} x s.
Arguments set_current {ty val} x s.
Arguments set_params {ty val} x s.
Arguments set_unused {ty val} x s.
Arguments set_starred {ty val} x s.
Arguments set_double_starred {ty val} x s.
Arguments set_too_many {ty val} s.
Arguments set_handled {ty val} x s.
Arguments push_unused {ty val} a s.
Arguments new {ty val} ps args.
Arguments after_kwargs {val} args.
Arguments next_arg {ty val} s.
Arguments arguments_left {ty val} s.
Arguments maybe_exact_multi_arg {ty val} fuel is_keyword_arg s.
Arguments check_unused {val} n unused.
Arguments from_unused {ty val} p s.
Arguments positional_or_keyword {ty val} fuel p s.
Arguments keyword_only {ty val} fuel p s.
Arguments positional_only {ty val} p s.
Arguments starred {ty val} s.
Arguments double_starred {ty val} s.
Arguments next {ty val} todo s.
Arguments items {ty val} fuel s.
Arguments has_unused_arguments {ty val} fuel s.
Arguments item_matches {ty val} fits i.
Arguments run {ty val} ps args.
Arguments match_arguments {ty val} fits ps args.
