(** Which variant of an overloaded function is used for a call:
    crates/zuban_python/src/type_helpers/overload.rs.

    Arbitrary here: arguments, types, variants, and the check of one variant against the
    arguments ([match_signature], which is what calc_callable_type_vars and
    calc_callable_dunder_init_type_vars answer, and whether an error was found while the
    arguments were inferred).  Not modelled: the cache of inferred expressions (points_backup), the warning
    for deprecated variants and the debug output. *)
From Coq Require Import List Arith Bool.
Import ListNotations.

Section Overload.
Variables (expected arg ty variant : Type).

(** crates/zuban_python/src/result_context.rs [ResultContext]: the kinds with an explicit type and the others *)
Inductive context : Type := Unknown | ValueExpected | Explicit (t : expected).

(** crates/zuban_python/src/result_context.rs:113-115 [has_explicit_type] *)
Definition has_explicit_type (c : context) : bool :=
  match c with Explicit _ => true | _ => false end.

(** crates/zuban_python/src/match_.rs:15-25 [SignatureMatch] with 9-12 [ArgumentIndexWithParam] *)
Inductive signature_match : Type :=
| False_ (similar : bool)
| TrueWithAny (argument_indices : list (nat * ty))
| True_ (arbitrary_length_handled : bool).

Variable match_signature : context -> variant -> list arg -> signature_match * bool.
Variables (return_type : variant -> ty) (has_guard : variant -> bool).
(** [==] and is_equal_type of types *)
Variables (type_eqb is_equal_type : ty -> ty -> bool).
(** The type of an argument ([Arg::infer]); none for an unpacked tuple and for a ParamSpec *)
Variable infer : context -> arg -> option ty.
(** The members of the type if it is treated as a union (maybe_union_like_with_materializations) *)
Variable union_like : ty -> option (list ty).
(** [ArgKind::Overridden]: the argument with another type *)
Variable override : arg -> ty -> arg.
Variables (any_type never : ty) (simplified_union : ty -> ty -> ty).
(** The callback [as_union_math_type] *)
Variable as_union_math_type : context -> variant -> list arg -> ty.
(** crates/zuban_python/src/arguments.rs [should_do_union_math_for_overloads] looks at every argument *)
Variable worth_splitting : arg -> bool.
Variable mypy_compatible : bool.

(** crates/zuban_python/src/type_helpers/overload.rs:32-36 [OverloadResult]; a variant is given by its place.
    [Panicked]: the [unwrap] of check_union_math. *)
Inductive overload_result : Type := Single (i : nat) | Union (t : ty) | NotFound | Panicked.

(** What is reported. *)
Inductive issue : Type := OverloadTooManyUnions | OverloadMismatch | ErrorsInArguments (i : nat).

(** crates/zuban_python/src/type_helpers/overload.rs:664-679 [are_any_arguments_ambiguous_in_overload] *)
Definition are_any_arguments_ambiguous_in_overload (a b : list (nat * ty)) : bool :=
  existsb (fun p1 => existsb (fun p2 => Nat.eqb (fst p1) (fst p2) && negb (type_eqb (snd p1) (snd p2))) b) a.

(** The variables of the loop in crates/zuban_python/src/type_helpers/overload.rs:54-308 [find_matching_function] *)
Record search : Type := mk_search {
  first_arbitrary_length_not_handled : option nat;
  first_similar : option nat;
  multi_any_match : option (nat * variant * list (nat * ty));
  had_error_in_func : option nat
}.

Definition or_first (a : option nat) (i : nat) : option nat := match a with Some _ => a | None => Some i end.

(** One round of the loop: a decision, or the variables after it. *)
Definition round (c : context) (args : list arg) (i : nat) (v : variant) (s : search) : overload_result + search :=
  let (m, had_error) := match_signature c v args in
  let s := if had_error then
      mk_search (first_arbitrary_length_not_handled s) (first_similar s) (multi_any_match s) (or_first (had_error_in_func s) i)
    else s in
  let similar := inr (mk_search (first_arbitrary_length_not_handled s) (or_first (first_similar s) i) (multi_any_match s) (had_error_in_func s)) in
  match m with
  | True_ handled =>
      if had_error then similar
      else match multi_any_match s with
           | Some _ => inl NotFound
           | None =>
               if negb handled then
                 inr (mk_search (or_first (first_arbitrary_length_not_handled s) i) (first_similar s) (multi_any_match s) (had_error_in_func s))
               else inl (Single i)
           end
  | TrueWithAny indices =>
      if had_error then similar
      else match multi_any_match s with
           | Some (_, other, old) =>
               if are_any_arguments_ambiguous_in_overload old indices &&
                  negb (is_equal_type (return_type other) (return_type v) && negb (has_guard v) && negb (has_guard other))
               then inl NotFound else inr s
           | None =>
               inr (mk_search (first_arbitrary_length_not_handled s) (first_similar s) (Some (i, v, indices)) (had_error_in_func s))
           end
  | False_ true => similar
  | False_ false => inr s
  end.

Fixpoint rounds (c : context) (args : list arg) (i : nat) (vs : list variant) (s : search) : overload_result + search :=
  match vs with
  | [] => inr s
  | v :: vs => match round c args i v s with inl r => inl r | inr s => rounds c args (S i) vs s end
  end.

(** crates/zuban_python/src/type_helpers/overload.rs:39-47 [UnionMathResult] *)
Inductive union_math_result : Type :=
| FirstSimilarIndex (i : nat)
| Match (first_similar_index : nat) (result : ty)
| NoMatch
| TooManyUnions
| MathPanicked.

Definition MAX_UNIONS : nat := 5.

(** The loop over the variants in crates/zuban_python/src/type_helpers/overload.rs:310-478 [check_union_math] *)
Fixpoint try_variants (c : context) (args : list arg) (i : nat) (vs : list variant) (first_similar : option nat) : union_math_result :=
  match vs with
  | [] => match first_similar with Some i => FirstSimilarIndex i | None => NoMatch end
  | v :: vs =>
      match fst (match_signature c v args) with
      | TrueWithAny _ | True_ _ => Match i (as_union_math_type c v args)
      | False_ true => try_variants c args (S i) vs (or_first first_similar i)
      | False_ false => try_variants c args (S i) vs first_similar
      end
  end.

(** [non_union_args.last_mut().unwrap().kind = ...] *)
Definition set_last (l : list arg) (a : arg) : list arg := removelast l ++ [a].

Definition smaller (old : option nat) (i : nat) : option nat :=
  match old with Some f => if i <? f then Some i else old | None => Some i end.

(** The loop over the members of a union in check_union_math; [deeper] is the recursive call.
    The vector [non_union_args] is changed by the calls and cut to its old length after each. *)
Fixpoint members (deeper : list arg -> union_math_result * list arg) (a : arg) (us : list ty)
    (non_union_args : list arg) (unioned : ty) (first_similar : option nat) (mismatch : bool) : union_math_result * list arg :=
  match us with
  | [] =>
      (if mismatch then match first_similar with Some i => FirstSimilarIndex i | None => NoMatch end
       else match first_similar with Some i => Match i unioned | None => MathPanicked end, non_union_args)
  | u :: us =>
      let len := length non_union_args in
      let (r, non_union_args) := deeper (set_last non_union_args (override a u)) in
      let first_similar := match r with Match i _ | FirstSimilarIndex i => smaller first_similar i | _ => first_similar end in
      match r with
      | MathPanicked => (MathPanicked, non_union_args)
      | TooManyUnions => (TooManyUnions, non_union_args)
      | Match _ t =>
          if mismatch then members deeper a us (firstn len non_union_args) unioned first_similar true
          else members deeper a us (firstn len non_union_args) (simplified_union unioned t) first_similar false
      | _ => members deeper a us (firstn len non_union_args) unioned first_similar true
      end
  end.

(** crates/zuban_python/src/type_helpers/overload.rs:310-478 [check_union_math] *)
Fixpoint check_union_math (c : context) (vs : list variant) (args : list arg) (non_union_args : list arg) (recursion_depth : nat)
    : union_math_result * list arg :=
  if MAX_UNIONS <=? recursion_depth then (TooManyUnions, non_union_args)
  else
    match args with
    | [] => (try_variants c non_union_args 0 vs None, non_union_args)
    | a :: args =>
        match infer c a with
        | None => check_union_math c vs args (non_union_args ++ [a]) recursion_depth
        | Some t =>
            match union_like t with
            | Some us =>
                members (fun l => check_union_math c vs args l (S recursion_depth)) a us
                  (non_union_args ++ [override a any_type]) never None false
            | None => check_union_math c vs args (non_union_args ++ [a]) recursion_depth
            end
        end
    end.

(** What crates/zuban_python/src/type_helpers/overload.rs:54-308 [find_matching_function] does before it tries again without a
    context: a decision, or the variables; and the issues so far. *)
Definition search_with (c : context) (vs : list variant) (args : list arg) : (overload_result + search) * list issue :=
  match rounds c args 0 vs (mk_search None None None None) with
  | inl r => (inl r, [])
  | inr s =>
      match multi_any_match s with
      | Some (i, _, _) => (inl (Single i), [])
      | None =>
          match first_arbitrary_length_not_handled s with
          | Some i => (inl (Single i), [])
          | None =>
              if (match first_similar s with None => true | Some _ => false end || negb mypy_compatible) && existsb worth_splitting args then
                match fst (check_union_math c vs args [] 0) with
                | Match _ t => (inl (Union t), [])
                | FirstSimilarIndex i =>
                    (inr (mk_search (first_arbitrary_length_not_handled s) (Some i) (multi_any_match s) (had_error_in_func s)), [])
                | NoMatch => (inr s, [])
                | TooManyUnions => (inr s, [OverloadTooManyUnions])
                | MathPanicked => (inl Panicked, [])
                end
              else (inr s, [])
          end
      end
  end.

(** The rest of find_matching_function *)
Definition give_up (s : search) : overload_result * list issue :=
  match first_similar s with
  | Some i => (Single i, [])
  | None =>
      (NotFound, OverloadMismatch :: match had_error_in_func s with Some i => [ErrorsInArguments i] | None => [] end)
  end.

(** crates/zuban_python/src/type_helpers/overload.rs:54-308 [find_matching_function]; with the context [Unknown] it
    does not call itself again. *)
Definition find_matching_function (c : context) (vs : list variant) (args : list arg) : overload_result * list issue :=
  match search_with c vs args with
  | (inl r, l) => (r, l)
  | (inr s, l) =>
      if has_explicit_type c then
        match search_with Unknown vs args with
        | (inl r, l') => (r, l ++ l')
        | (inr s, l') => let (r, l'') := give_up s in (r, l ++ l' ++ l'')
        end
      else let (r, l') := give_up s in (r, l ++ l')
  end.

End Overload.

Arguments Unknown {expected}.
Arguments ValueExpected {expected}.
Arguments Explicit {expected} t.
Arguments has_explicit_type {expected} c.
Arguments False_ {ty} similar.
Arguments TrueWithAny {ty} argument_indices.
Arguments True_ {ty} arbitrary_length_handled.
Arguments Single {ty} i.
Arguments Union {ty} t.
Arguments NotFound {ty}.
Arguments Panicked {ty}.
Arguments FirstSimilarIndex {ty} i.
Arguments Match {ty} first_similar_index result.
Arguments NoMatch {ty}.
Arguments TooManyUnions {ty}.
Arguments MathPanicked {ty}.
