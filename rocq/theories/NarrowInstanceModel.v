(** How [isinstance(x, C)], [issubclass(x, C)], [TypeIs] and class patterns narrow a type: crates/zuban_python/src/file/flow_analysis.rs.

    Left out are TypedDicts and the issues that are reported.  What two types have to do with each other (a subtype, an overlap, a class with both as
    bases) is given, see C54. *)
From Coq Require Import List NArith ZArith Bool.
From Verif Require Import TupleModel SubtypeModel NarrowModel NarrowIsModel.
Import ListNotations.
Open Scope N_scope.

Section Instances.
Variable p : program.
Variables (float complex : N).
Variable exact : N -> N.                              (* the class without the ones that are promoted to it: [might_be_promoted: false] *)
Variable fits : type -> type -> option bool.          (* [is_super_type_of] without promotions; [Some b] is a match, with [Any] where [b] *)
Variable below : type -> type -> bool.                (* [is_sub_type_of] without promotions *)
Variable unite : type -> type -> type.                (* [simplified_union_in_place] *)
Variable unite_all : list type -> type.               (* [owned_simplified_union_from_iterators] *)
Variable overlaps : type -> type -> bool.
Variable accepts : type -> type -> bool.              (* [is_simple_super_type_of] *)
Variable class_of_both : type -> type -> option type. (* crates/zuban_python/src/type_/intersection.rs:46-253 [new_instance_intersection] *)
Variable any_first : bool.                            (* [Any] is not the first of the union as it is written *)

(** crates/zuban_python/src/file/flow_analysis.rs:5994-6007 [intersect] *)
Definition intersect (t1 t2 : type) : option type :=
  if accepts t1 t2 then Some t2 else if accepts t2 t1 then Some t1 else class_of_both t1 t2.

(** The state while the classes are looked at, for one part of the type of [x] *)
Record round := mk_round { true_type : type; matched : bool; matched_with_any : bool; had_any : bool }.

(** One round of the inner loop in crates/zuban_python/src/file/flow_analysis.rs:5753-5936 [split_and_intersect] *)
Definition look_at_class (t : type) (r : round) (i : type) : round :=
  match i with
  | Any => mk_round (true_type r) (matched r) (matched_with_any r) true
  | _ =>
      match fits i t with
      | Some true => mk_round (true_type r) true (matched_with_any r) (had_any r)
      | Some false => mk_round (true_type r) true false (had_any r)
      | None => if below i t then mk_round (unite (true_type r) i) (matched r) (matched_with_any r) (had_any r) else r
      end
  end.

(** [split] in crates/zuban_python/src/file/flow_analysis.rs:5753-5936 [split_and_intersect] *)
Definition split_part (isinstance_type : type) (s : sides) (t : type) : sides :=
  let r := fold_left (look_at_class t) (parts isinstance_type) (mk_round (fst s) false true false) in
  let s :=
    if matched r then
      if matched_with_any r then (unite (true_type r) isinstance_type, join (snd s) t)
      else (unite (true_type r) t, snd s)
    else (true_type r, join (snd s) t) in
  if had_any r then (if any_first then join Any (fst s) else join (fst s) Any, snd s) else s.

Definition unrestricted (n : N) : bool := match kind_of p n with Unrestricted => true | _ => false end.

(** One round of the outer loop; the flag is [type_var_split] *)
Definition split_one (isinstance_type : type) (x : sides * bool) (t : type) : sides * bool :=
  let '(s, type_var_split) := x in
  match t with
  | TypeOf (Union ts) => (fold_left (split_part isinstance_type) (map TypeOf ts) s, type_var_split)
  | Any => ((isinstance_type, join (snd s) t), type_var_split)
  | TypeVar n =>
      if unrestricted n then
        match intersect t isinstance_type with
        | Some new => ((new, join (snd s) t), true)
        | None => (split_part isinstance_type s t, type_var_split)
        end
      else (split_part isinstance_type s t, type_var_split)
  | _ => (split_part isinstance_type s t, type_var_split)
  end.

(** [is_protocol] in crates/zuban_python/src/file/flow_analysis.rs:5753-5936 [split_and_intersect] *)
Definition protocols (t : type) : list type :=
  filter (fun i => match i with Class c _ => is_protocol p c | _ => false end) (parts match t with TypeOf i => i | _ => t end).

(** What is tried if nothing is left *)
Definition find_others (t isinstance_type : type) : type :=
  if overlaps t isinstance_type then isinstance_type
  else fold_left (fun true_type u =>
    match intersect u isinstance_type with
    | Some new => unite true_type new
    | None => fold_left (fun true_type _ => unite true_type u) (protocols isinstance_type) true_type
    end) (parts t) Never.

Definition is_class (c : N) (t : type) : bool := match t with Class d _ => (d =? c) || (d =? exact c) | _ => false end.
Definition exact_type (c : N) : type := Class (exact c) [].
Definition int_type : type := Class (int_class p) [].
Definition float_type : type := Class float [].

(** crates/zuban_python/src/file/flow_analysis.rs:5944-5992 [replace_promoted]; the flag is for [PromotionReplacementFor::Int] *)
Fixpoint replace_promoted (for_int : bool) (t : type) : option type :=
  match t with
  | Class _ _ =>
      if for_int then
        if is_class float t then Some (exact_type float)
        else if is_class complex t then Some (join (exact_type float) (exact_type complex))
        else None
      else if is_class complex t then Some (exact_type complex)
      else None
  | Union ts =>
      if existsb (fun t => is_class float t || is_class complex t) ts then
        Some (unite_all (map (fun t => or_else (replace_promoted for_int t) t) ts))
      else None
  | _ => None
  end.

Definition non_promotable (c : N) (t : type) : bool := existsb (fun u => of_class (exact c) u) (parts t).

(** The end of crates/zuban_python/src/file/flow_analysis.rs:5753-5936 [split_and_intersect] *)
Definition handle_promotions (t isinstance_type : type) (type_var_split : bool) (other_side : type) : type :=
  match isinstance_type with
  | Class _ _ =>
      if is_class float isinstance_type then
        if non_promotable float t then other_side
        else
          match replace_promoted false other_side with
          | Some new => join new int_type
          | None => if negb type_var_split && negb (accepts other_side int_type) then join other_side int_type else other_side
          end
      else if of_class (int_class p) isinstance_type then or_else (replace_promoted true other_side) other_side
      else if is_class complex isinstance_type then
        if is_never other_side && negb (non_promotable complex t) then float_type else other_side
      else other_side
  | _ => other_side
  end.

(** crates/zuban_python/src/file/flow_analysis.rs:5753-5936 [split_and_intersect] *)
Definition split_and_intersect (t isinstance_type : type) : sides :=
  let '((true_type, other_side), type_var_split) := fold_left (split_one isinstance_type) (parts t) (nothing, false) in
  (if is_never true_type then find_others t isinstance_type else true_type, handle_promotions t isinstance_type type_var_split other_side).
End Instances.
