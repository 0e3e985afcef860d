(** How type variables are inferred: the bounds that are collected while types are matched and what
    is taken in the end.  Types are left open: the model asks whether one is a subtype of another,
    whether two are the same, for a common base and a common subtype.  Not modelled: [Any],
    TypeVarTuples and ParamSpecs, type variables in the types of the arguments (transitive
    constraints), the context of the result. *)
From Coq Require Import List NArith Bool.
Import ListNotations.
Open Scope N_scope.

Section Solve.
Variable T : Type.
(** [le a b]: [b.is_simple_super_type_of(a)] and [a.is_simple_sub_type_of(b)]. *)
Variable le : T -> T -> bool.
(** [is_simple_same_type] *)
Variable same : T -> T -> bool.
(** [PartialEq] *)
Variable eq : T -> T -> bool.
(** crates/zuban_python/src/matching/matcher/bound.rs:274-292 [BoundKind::common_base_type] and
    crates/zuban_python/src/matching/matcher/bound.rs:294-312 [BoundKind::common_sub_type] *)
Variables common_base_type common_sub_type : T -> T -> option T.

(** crates/zuban_python/src/type_/type_var_likes.rs:379-383 [Variance] *)
Inductive variance := Invariant_ | Covariant | Contravariant.

(** crates/zuban_python/src/type_/type_var_likes.rs:394-400 [Variance::invert] *)
Definition invert (v : variance) : variance :=
  match v with Covariant => Contravariant | Contravariant => Covariant | Invariant_ => Invariant_ end.

(** crates/zuban_python/src/matching/matcher/bound.rs:21-28 [Bound] *)
Inductive bound :=
  | Uncalculated (fallback : option T)
  | Invariant (t : T)
  | Upper (t : T)
  | UpperAndLower (upper lower : T)
  | Lower (t : T).

(** crates/zuban_python/src/matching/matcher/bound.rs:52-58 [new] *)
Definition new_bound (t : T) (v : variance) : bound :=
  match v with Invariant_ => Invariant t | Covariant => Lower t | Contravariant => Upper t end.

(** [PartialEq] of [Bound], crates/zuban_python/src/matching/matcher/bound.rs:20 *)
Definition bound_eq (a b : bound) : bool :=
  match a, b with
  | Uncalculated None, Uncalculated None => true
  | Uncalculated (Some x), Uncalculated (Some y) => eq x y
  | Invariant x, Invariant y | Upper x, Upper y | Lower x, Lower y => eq x y
  | UpperAndLower x1 x2, UpperAndLower y1 y2 => eq x1 y1 && eq x2 y2
  | _, _ => false
  end.

(** crates/zuban_python/src/matching/matcher/type_var_matcher.rs:21-27 [CalculatingTypeArg]; without the
    flags for the context. *)
Record arg := mk_arg { type_ : bound; uninferrable : bool }.

(** crates/zuban_python/src/matching/matcher/type_var_matcher.rs:30-32 [calculated] *)
Definition calculated (b : bound) : bool := match b with Uncalculated _ => false | _ => true end.

(** crates/zuban_python/src/matching/matcher/type_var_matcher.rs:166-185 [update_upper_bound]; the last
    case cannot be reached. *)
Definition update_upper_bound (b : bound) (upper : T) : bound :=
  match b with
  | Upper _ => Upper upper
  | Lower lower => if eq upper lower then Invariant upper else UpperAndLower upper lower
  | UpperAndLower _ lower => if eq upper lower then Invariant upper else UpperAndLower upper lower
  | _ => b
  end.

(** crates/zuban_python/src/matching/matcher/type_var_matcher.rs:187-215 [update_lower_bound] *)
Definition update_lower_bound (b : bound) (lower : T) : bound :=
  let common := fun b => match common_base_type b lower with Some t => t | None => lower end in
  match b with
  | Lower old => Lower (common old)
  | Upper upper => if eq upper lower then Invariant lower else UpperAndLower upper lower
  | UpperAndLower upper old =>
      let new_lower := common old in
      if eq upper new_lower then Invariant new_lower else UpperAndLower upper new_lower
  | _ => b
  end.

(** crates/zuban_python/src/matching/matcher/type_var_matcher.rs:74-164 [merge_or_mismatch], after the
    case of two invariant types that are the same. *)
Definition between (b : bound) (other : T) : bool :=
  match b with
  | Invariant t => same t other
  | Upper upper => le other upper
  | Lower lower => le lower other
  | UpperAndLower upper lower => le other upper && le lower other
  | Uncalculated _ => false
  end.

(** crates/zuban_python/src/matching/matcher/type_var_matcher.rs:114-137: a covariant value that is not
    between the bounds. *)
Definition merge_covariant (b : bound) (other : T) : bool * bound :=
  match b with
  | Lower t =>
      match common_base_type t other with
      | Some new => (true, Lower new)
      | None => (le other t, b)
      end
  | Invariant t => (le other t, b)
  | UpperAndLower upper lower =>
      match common_base_type lower other with
      | Some new => if le new upper then (true, UpperAndLower upper new) else (le other lower, b)
      | None => (le other lower, b)
      end
  | _ => (false, b)
  end.

(** crates/zuban_python/src/matching/matcher/type_var_matcher.rs:138-161: a contravariant one. *)
Definition merge_contravariant (b : bound) (other : T) : bool * bound :=
  match b with
  | Upper t =>
      match common_sub_type t other with
      | Some new => (true, Upper new)
      | None => (le t other, b)
      end
  | Invariant t => (le t other, b)
  | UpperAndLower upper lower =>
      match common_sub_type upper other with
      | Some new => if le lower new then (true, UpperAndLower new lower) else (le upper other, b)
      | None => (le upper other, b)
      end
  | _ => (false, b)
  end.

(** crates/zuban_python/src/matching/matcher/type_var_matcher.rs:74-164 [merge_or_mismatch] *)
Definition merge_or_mismatch (b : bound) (other : T) (v : variance) : bool * bound :=
  if between b other then
    match b, v with
    | Invariant _, _ => (true, b)
    | _, Invariant_ => (true, Invariant other)
    | _, Covariant => (true, update_lower_bound b other)
    | _, Contravariant => (true, update_upper_bound b other)
    end
  else
    match v with
    | Invariant_ => (false, b)
    | Covariant => merge_covariant b other
    | Contravariant => merge_contravariant b other
    end.

(** crates/zuban_python/src/matching/matcher/type_var_matcher.rs:39-72 [merge] *)
Definition merge (a : arg) (other : bound) : bool * arg :=
  if bound_eq (type_ a) other then (true, a)
  else match type_ a with
  | Uncalculated fallback =>
      if calculated other || match fallback with None => true | Some _ => false end
      then (true, mk_arg other (uninferrable a)) else (true, a)
  | b =>
      let finish := fun (r : bool * bound) =>
        (fst r, mk_arg (snd r) (uninferrable a || negb (fst r))) in
      match other with
      | Upper t => finish (merge_or_mismatch b t Contravariant)
      | Lower t => finish (merge_or_mismatch b t Covariant)
      | Invariant t => finish (merge_or_mismatch b t Invariant_)
      | UpperAndLower upper t =>
          let r1 := merge_or_mismatch b upper Contravariant in
          let r2 := merge_or_mismatch (snd r1) t Covariant in
          finish (fst r1 && fst r2, snd r2)
      | Uncalculated _ => (true, a)
      end
  end.

(** crates/zuban_python/src/type_/type_var_likes.rs:970-974 [TypeVarKind] *)
Inductive kind := Unrestricted | Bound_ (t : T) | Constraints (ts : list T).

(** crates/zuban_python/src/type_/matching.rs:485-492 [simple_matches] *)
Definition simple_matches (t value : T) (v : variance) : bool :=
  match v with Covariant => le value t | Contravariant => le t value | Invariant_ => same t value end.

(** crates/zuban_python/src/matching/matcher/type_var_matcher.rs:404-445 [check_constraints], without [Any]
    and type variables. *)
Definition check_constraints (constraints : list T) (value : T) (v : variance) : option bound :=
  option_map Invariant (find (fun c => simple_matches c value v) constraints).

(** crates/zuban_python/src/matching/matcher/type_var_matcher.rs:291-369 [match_or_add_type_var], for the
    type variable that is meant. *)
Definition match_or_add (k : kind) (a : arg) (value : T) (v : variance) : bool * arg :=
  let constraint_mismatch :=
    (false, if calculated (type_ a) then a else mk_arg (Uncalculated (Some value)) (uninferrable a)) in
  match k with
  | Unrestricted => merge a (new_bound value v)
  | Bound_ t => if le value t then merge a (new_bound value v) else constraint_mismatch
  | Constraints cs =>
      match check_constraints cs value v with
      | Some b => if calculated (type_ a) then merge a b else (true, mk_arg b (uninferrable a))
      | None => constraint_mismatch
      end
  end.

(** The type of a type variable in the end. *)
Inductive result := Inferred (t : T) | Any | Never.

(** crates/zuban_python/src/matching/matcher/type_var_matcher.rs:217-234 [into_generic_item] with
    crates/zuban_python/src/matching/matcher/bound.rs:147-159 [into_maybe_generic_item]. *)
Definition into_generic_item (a : arg) : result :=
  if uninferrable a then Any
  else match type_ a with
  | Invariant t | Upper t | Lower t | UpperAndLower _ t => Inferred t
  | Uncalculated (Some t) => Inferred t
  | Uncalculated None => Never
  end.

(** The type of a parameter: a type variable, a type without type variables, a class with type
    arguments (a callable is one as well) or a union. *)
Inductive formal :=
  | Var (i : nat) | Closed (t : T) | Class (c : N) (args : list formal) | Union (fs : list formal).

(** The variances of the type variables of a class. *)
Variable variances : N -> list variance.
(** The type arguments of the class [c] in the MRO of a type, and those of a type that is an
    instance of the class itself. *)
Variables as_instance_of instance_of : T -> N -> option (list T).
(** The members of a union, or the type itself. *)
Variable members : T -> list T.

(** The kinds of the type variables. *)
Variable kinds : nat -> kind.

(** crates/zuban_python/src/matching/matcher/type_var_matcher.rs:238-242 [TypeVarMatcher] *)
Definition state := nat -> arg.

(** The assignment to [current] in
    crates/zuban_python/src/matching/matcher/type_var_matcher.rs:291-369 [match_or_add_type_var]. *)
Definition set_arg (s : state) (i : nat) (a : arg) : state := fun j => if Nat.eqb j i then a else s j.

(** What matching does: an answer and a new state. *)
Definition step := state -> bool * state.

(** crates/zuban_python/src/match_.rs:85-97 [Match::any]; without entries it is a match. *)
Fixpoint any_entry (steps : list step) : step := fun s =>
  match steps with
  | [] => (false, s)
  | f :: rest => let r := f s in if fst r then r else any_entry rest (snd r)
  end.

Definition any_of (steps : list step) : step := fun s =>
  match steps with [] => (true, s) | _ => any_entry steps s end.

(** crates/zuban_python/src/match_.rs:99-112 [Match::all] *)
Fixpoint all_of (steps : list step) : step := fun s =>
  match steps with
  | [] => (true, s)
  | f :: rest => let r := f s in if fst r then all_of rest (snd r) else r
  end.

(** The variance of a type argument in crates/zuban_python/src/type_/matching.rs:683-748 [matches_class] *)
Definition compose (v w : variance) : variance :=
  match v with Covariant => w | Contravariant => invert w | Invariant_ => Invariant_ end.

(** crates/zuban_python/src/type_/matching.rs:683-748 [matches_class], the loop over the type arguments. *)
Fixpoint matches_args (v : variance) (args : list (variance -> T -> step)) (vs : list variance)
    (values : list T) : step := fun s =>
  match args, vs, values with
  | f :: args, w :: vs, t :: values =>
      let r1 := f (compose v w) t s in
      let r2 := matches_args v args vs values (snd r1) in
      (fst r1 && fst r2, snd r2)
  | _, _, _ => (true, s)
  end.

(** The cases of type variables, classes and unions in
    crates/zuban_python/src/type_/matching.rs:25-284 [matches_internal],
    crates/zuban_python/src/type_/matching.rs:303-405 [is_super_type_of],
    crates/zuban_python/src/type_/matching.rs:286-293 [is_sub_type_of],
    crates/zuban_python/src/type_/matching.rs:508-620 [check_other_side],
    crates/zuban_python/src/type_/matching.rs:622-681 [union_is_super_type_of],
    crates/zuban_python/src/type_/matching.rs:750-888 [matches_class_against_type] and
    crates/zuban_python/src/type_/matching.rs:683-748 [matches_class].  Simplified: a class with type
    variables that has to be a subtype of a value is only looked for as the class itself, not by its
    MRO; protocols, promotions and tuples are not modelled. *)
Fixpoint matches (f : formal) (v : variance) (value : T) {struct f} : step :=
  match f with
  | Var i => fun s => let r := match_or_add (kinds i) (s i) value v in (fst r, set_arg s i (snd r))
  | Closed t => fun s => (simple_matches t value v, s)
  | Class c args =>
      let steps := map (fun f => matches f) args in
      let class := fun values : option (list T) =>
        match values with
        | Some values => matches_args v steps (variances c) values
        | None => fun s => (false, s)
        end in
      match v with
      | Covariant => all_of (map (fun m => class (as_instance_of m c)) (members value))
      | Contravariant => any_of (map (fun m => class (instance_of m c)) (members value))
      | Invariant_ => class (instance_of value c)
      end
  | Union fs =>
      let super := all_of (map (fun m => any_of (map (fun f => matches f Covariant m) fs))
                               (members value)) in
      let sub := all_of (map (fun f => matches f Contravariant value) fs) in
      match v with
      | Covariant => super
      | Contravariant => sub
      | Invariant_ => fun s =>
          let r1 := super s in let r2 := sub (snd r1) in (fst r1 && fst r2, snd r2)
      end
  end.

(** The arguments of a call, one after the other, as in the loop in
    crates/zuban_python/src/matching/matcher/utils.rs:718-1254 [match_arguments_against_params]. *)
Fixpoint match_call (params : list (formal * T)) : step := fun s =>
  match params with
  | [] => (true, s)
  | (f, t) :: params =>
      let r1 := matches f Covariant t s in
      let r2 := match_call params (snd r1) in
      (fst r1 && fst r2, snd r2)
  end.

(** crates/zuban_python/src/matching/matcher/type_var_matcher.rs:249-259 [new_internal] *)
Definition start : state := fun _ => mk_arg (Uncalculated None) false.
End Solve.
