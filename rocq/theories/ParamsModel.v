(** Is a function with the parameters [ps2] wanted where one with the parameters [ps1] is:
    crates/zuban_python/src/params.rs:104-147 [matches_simple_params].

    Parameters are those of CallModel: [*args: *Ts], ParamSpecs and unpacked TypedDicts are not modelled, and
    type variables neither: the comparison of two types is a function. *)
From Coq Require Import List NArith Arith Bool.
From Verif Require Import CallModel.
Import ListNotations.

Section Params.
Variable ty : Type.
(** [a.matches(b)] with the variance of the call (crates/zuban_python/src/type_/matching.rs), the same with [Variance::Invariant], and
    [is_any] of is_trivial_suffix. *)
Variables (type_match type_same : ty -> ty -> bool) (is_any : ty -> bool).
(** [matcher.precise_matching] and [matcher.ignore_positional_param_names()] *)
Variables (precise ignore_names : bool).

Notation param := (param ty).

(** The closure match_with_variance of crates/zuban_python/src/params.rs:151-630 [matches_simple_params_part2]: without an annotation
    everything matches. *)
Definition with_variance (f : ty -> ty -> bool) (a b : option ty) : bool :=
  match a, b with Some a, Some b => f a b | _, _ => true end.
Definition match_ (p1 p2 : param) : bool := with_variance type_match (p_type p1) (p_type p2).

Definition same_name (p1 p2 : param) : bool :=
  match p_name p1, p_name p2 with Some n, Some m => N.eqb n m | None, None => true | _, _ => false end.

Definition is_kind (k : kind) (p : param) : bool := kind_eqb (p_kind p) k.
Definition is_variadic (p : param) : bool := is_kind Star p || is_kind StarStar p.
Definition by_keyword (p : param) : bool := is_kind PositionalOrKeyword p || is_kind KeywordOnly p.
Definition any_type (p : param) : bool := match p_type p with Some t => is_any t | None => true end.

(** crates/zuban_python/src/params.rs:685-736 [is_trivial_suffix]; [prev] is the parameter in previous_arbitrary_len_match. *)
Definition is_trivial_suffix (prev : option param) (p1 : param) (r1 ps2 : list param) : bool :=
  let star_star (rest : list param) := match find (is_kind StarStar) rest with Some s => any_type s | None => false end in
  match prev with
  | Some _ => star_star (p1 :: r1)
  | None =>
      is_kind Star p1 &&
      match r1 with
      | [] => any_type p1 && forallb (fun p => is_kind PositionalOnly p || is_kind PositionalOrKeyword p || is_kind Star p) ps2
      | _ => star_star r1
      end
  end.

(** crates/zuban_python/src/params.rs:632-683 [match_star_star] *)
Fixpoint match_star_star (missing_kwargs : bool) (p1 : param) (ps2 : list param) : bool :=
  match ps2 with
  | [] => negb missing_kwargs
  | p2 :: r2 =>
      match p_kind p2 with
      | StarStar => match_ p1 p2 && match_star_star false p1 r2
      | PositionalOrKeyword | KeywordOnly => p_default p2 && match_ p1 p2 && match_star_star missing_kwargs p1 r2
      | Star => match_star_star missing_kwargs p1 r2
      | PositionalOnly => p_default p2 && match_star_star missing_kwargs p1 r2
      end
  end.

(** The loop over cloned_params2 of crates/zuban_python/src/params.rs:151-630 [matches_simple_params_part2]: [p1] can be given by keyword
    and [star] takes it by position; [l] is what follows [star]. *)
Fixpoint keyword_behind (p1 star : param) (l : list param) : bool :=
  match l with
  | [] => false
  | p2 :: r2 =>
      match p_kind p2 with
      | StarStar => with_variance type_same (p_type star) (p_type p2)
      | KeywordOnly => if same_name p2 p1 then p_default p2 && match_ p1 p2 else keyword_behind p1 star r2
      | _ => false
      end
  end.

(** The loop over unused_keyword_params for a keyword-only parameter: the one of that name, and the others. *)
Fixpoint take_unused (p1 : param) (unused : list param) : option (param * list param) :=
  match unused with
  | [] => None
  | p2 :: r => if same_name p1 p2 then Some (p2, r)
               else match take_unused p1 r with Some (q, r') => Some (q, p2 :: r') | None => None end
  end.

(** The loop [while params2.peek().is_some()] for a keyword-only parameter: whether the types match, and what is left of
    params2 (after the [params2.next()] at the end) and of unused_keyword_params; None: not found. *)
Fixpoint find_keyword (p1 : param) (ps2 unused : list param) : option (bool * list param * list param) :=
  match ps2 with
  | [] => None
  | p2 :: r2 =>
      if same_name p1 p2 && by_keyword p2 then Some (match_ p1 p2, r2, unused)
      else match p_kind p2 with
           | PositionalOrKeyword | KeywordOnly => find_keyword p1 r2 (unused ++ [p2])
           | StarStar => Some (match_ p1 p2, r2, unused)
           | Star => find_keyword p1 r2 unused
           | PositionalOnly => if p_default p2 then find_keyword p1 r2 unused else None
           end
  end.

(** crates/zuban_python/src/params.rs:151-630 [matches_simple_params_part2]; [mis1] and [mis2] are mismatched_name_pos_params1 and 2. *)
Fixpoint matches_from (ps1 ps2 unused mis1 mis2 : list param) (prev : option param) : bool :=
  match ps1 with
  | [] => forallb p_default unused && forallb (fun p => p_default p || is_variadic p) ps2
  | p1 :: r1 =>
      match hd_error (ps2 ++ unused) with
      | None => negb precise && is_trivial_suffix prev p1 r1 ps2
      | Some p2 =>
          if p_default p1 && negb (p_default p2 || is_variadic p2) then false
          else
          match p_kind p1 with
          | PositionalOnly =>
              match p_kind p2 with
              | PositionalOnly | PositionalOrKeyword => match_ p1 p2 && matches_from r1 (tl ps2) unused mis1 mis2 prev
              | Star => match_ p1 p2 && matches_from r1 ps2 unused mis1 mis2 prev
              | _ => false
              end
          | PositionalOrKeyword =>
              match p_kind p2 with
              | PositionalOrKeyword =>
                  if same_name p1 p2 then match_ p1 p2 && matches_from r1 (tl ps2) unused mis1 mis2 prev
                  else ignore_names && negb (existsb (fun q => same_name q p1) mis2) && negb (existsb (fun q => same_name q p2) mis1) &&
                       match_ p1 p2 && matches_from r1 (tl ps2) unused (mis1 ++ [p1]) (mis2 ++ [p2]) prev
              | Star => match_ p1 p2 && keyword_behind p1 p2 (tl ps2) && matches_from r1 ps2 unused mis1 mis2 prev
              | PositionalOnly => ignore_names && match_ p1 p2 && matches_from r1 (tl ps2) unused mis1 mis2 prev
              | _ => false
              end
          | KeywordOnly =>
              let ps2' := if is_kind Star p2 then tl ps2 else ps2 in
              let p2' := if is_kind Star p2 then match ps2' with q :: _ => q | [] => p2 end else p2 in
              if is_kind StarStar p2' then match_ p1 p2' && matches_from r1 ps2' unused mis1 mis2 prev
              else
                match take_unused p1 unused with
                | Some (q, unused') => match_ p1 q && matches_from r1 ps2' unused' mis1 mis2 prev
                | None =>
                    match find_keyword p1 ps2' unused with
                    | Some (m, ps2'', unused') => m && matches_from r1 ps2'' unused' mis1 mis2 prev
                    | None => false
                    end
                end
          | Star =>
              match p_kind p2 with
              | Star => match_ p1 p2 && matches_from r1 (tl ps2) unused mis1 mis2 (Some p1)
              | _ => negb precise && is_trivial_suffix prev p1 r1 ps2
              end
          | StarStar => match_star_star true p1 ps2 && matches_from r1 [] unused mis1 mis2 prev
          end
      end
  end.

(** crates/zuban_python/src/params.rs:104-147 [matches_simple_params] *)
Definition matches_simple_params (ps1 ps2 : list param) : bool := matches_from ps1 ps2 [] [] [] None.

End Params.

Arguments with_variance {ty} f a b.
Arguments match_ {ty} type_match p1 p2.
Arguments same_name {ty} p1 p2.
Arguments is_kind {ty} k p.
Arguments is_variadic {ty} p.
Arguments by_keyword {ty} p.
Arguments any_type {ty} is_any p.
Arguments is_trivial_suffix {ty} is_any prev p1 r1 ps2.
Arguments match_star_star {ty} type_match missing_kwargs p1 ps2.
Arguments keyword_behind {ty} type_match type_same p1 star l.
Arguments take_unused {ty} p1 unused.
Arguments find_keyword {ty} type_match p1 ps2 unused.
Arguments matches_from {ty} type_match type_same is_any precise ignore_names ps1 ps2 unused mis1 mis2 prev.
Arguments matches_simple_params {ty} type_match type_same is_any precise ignore_names ps1 ps2.
