(** The types that are tried member by member: crates/zuban_python/src/type_/mod.rs
    [maybe_union_like_with_materializations], crates/zuban_python/src/arguments.rs
    [should_do_union_math_for_overloads], and the type after an undecided call,
    crates/zuban_python/src/type_helpers/overload.rs [execute_internal].

    Types are reduced to the forms these functions look at; [Class] stands for every other type.
    Recursive aliases (they are unfolded) are not modelled. *)
From Coq Require Import List NArith Arith Bool.
Import ListNotations.

(** crates/zuban_python/src/type_/mod.rs [Type]; [Enum] has a number of members, [EnumMember] is one of them;
    a union has at least one entry. *)
Inductive type : Type :=
| Class (n : N)
| Bool
| BoolLiteral (b : bool)
| Enum (e : N) (members : nat)
| EnumMember (e : N) (members i : nat)
| Union (first : type) (others : list type)
| TypeOf (t : type)
| Tuple (items : list type)
| Any
| Never.

(** crates/zuban_python/src/type_/mod.rs:554-561 [is_union_like] *)
Fixpoint is_union_like (t : type) : bool :=
  match t with Union _ _ => true | TypeOf t => is_union_like t | _ => false end.

(** crates/zuban_python/src/type_/mod.rs:563-581 [maybe_union_like] *)
Fixpoint maybe_union_like (t : type) : option (list type) :=
  match t with
  | Union u us => Some (u :: us)
  | TypeOf t => option_map (map TypeOf) (maybe_union_like t)
  | _ => None
  end.

Definition MAX_MATERIALIZATIONS : nat := 20.

(** One round of the loop over the items of a tuple.  With a union of [k] members, [k] copies of the tuples so
    far are put one behind the other; then the members are pushed in turn, over and over. *)
Definition add_item (item : type) (maybe_union : option (list type)) (new_tuples : list (list type)) : option (list (list type)) :=
  match maybe_union with
  | Some us =>
      if MAX_MATERIALIZATIONS <? length us * length new_tuples then None
      else Some (map (fun x => fst x ++ [snd x])
             (combine (concat (repeat new_tuples (length us))) (concat (repeat us (length new_tuples)))))
  | None => Some (map (fun l => l ++ [item]) new_tuples)
  end.

Fixpoint add_items (items : list (type * option (list type))) (new_tuples : list (list type)) : option (list (list type)) :=
  match items with
  | [] => Some new_tuples
  | (t, u) :: items => match add_item t u new_tuples with Some l => add_items items l | None => None end
  end.

Definition is_none {A} (o : option A) : bool := match o with None => true | Some _ => false end.

(** The arm for tuples, from the items and their unions *)
Definition split_tuple (items : list type) (union_for_each_entry : list (option (list type))) : option (list type) :=
  if forallb is_none union_for_each_entry then None
  else match add_items (combine items union_for_each_entry) [[]] with
       | Some new_tuples => if length new_tuples <=? 1 then None else Some (map Tuple new_tuples)
       | None => None
       end.

(** crates/zuban_python/src/type_/mod.rs:583-653 [maybe_union_like_with_materializations] *)
Fixpoint maybe_union_like_with_materializations (t : type) : option (list type) :=
  match maybe_union_like t with
  | Some us => Some us
  | None =>
      match t with
      | Bool => Some [BoolLiteral true; BoolLiteral false]
      | Enum e n =>
          if (n <? MAX_MATERIALIZATIONS) && (1 <? n) then Some (map (EnumMember e n) (seq 0 n)) else None
      | Tuple items => split_tuple items (map maybe_union_like_with_materializations items)
      | _ => None
      end
  end.

(** What crates/zuban_python/src/arguments.rs:52-75 [should_do_union_math_for_overloads] looks for in the type of an argument *)
Definition should_do_union_math (t : type) : bool :=
  is_union_like t ||
  match t with
  | Bool | Enum _ _ => true
  | Tuple items => existsb is_union_like items
  | _ => false
  end.

(** Equality of types ([==]) *)
Fixpoint type_eqb (s t : type) : bool :=
  match s, t with
  | Class n, Class m => N.eqb n m
  | Bool, Bool | Any, Any | Never, Never => true
  | BoolLiteral b, BoolLiteral c => Bool.eqb b c
  | Enum e n, Enum f m => N.eqb e f && Nat.eqb n m
  | EnumMember e n i, EnumMember f m j => N.eqb e f && Nat.eqb n m && Nat.eqb i j
  | Union x l, Union y k =>
      type_eqb x y &&
      (fix all2 (l k : list type) : bool :=
         match l, k with [], [] => true | x :: l, y :: k => type_eqb x y && all2 l k | _, _ => false end) l k
  | Tuple l, Tuple k =>
      (fix all2 (l k : list type) : bool :=
         match l, k with [], [] => true | x :: l, y :: k => type_eqb x y && all2 l k | _, _ => false end) l k
  | TypeOf t, TypeOf u => type_eqb t u
  | _, _ => false
  end.

Section Fallback.
Variable is_equal_type : type -> type -> bool.

(** crates/zuban_python/src/type_/mod.rs:1836-1893 [merge_matching_parts], with crates/zuban_python/src/type_/tuple.rs:609-626
    [merge_matching_parts] for tuples of fixed length (tuples of different lengths become a tuple of any
    length, which is [Any] here); no generic classes. *)
Fixpoint merge_matching_parts (s t : type) : type :=
  match s with
  | Class n => match t with Class m => if N.eqb n m then Class n else Any | _ => Any end
  | Union u us => match t with Union x xs => if forallb (fun y => existsb (type_eqb y) (x :: xs)) (u :: us) then Union u us else Any | _ => Any end
  | Tuple l =>
      match t with
      | Tuple k =>
          if Nat.eqb (length l) (length k) then
            Tuple ((fix zip (l k : list type) : list type :=
              match l, k with x :: l, y :: k => merge_matching_parts x y :: zip l k | _, _ => [] end) l k)
          else Any
      | _ => Any
      end
  | _ => if is_equal_type s t then s else Any
  end.

(** The arm [NotFound] of crates/zuban_python/src/type_helpers/overload.rs:559-650 [execute_internal]; no variant is a panic (unwrap) *)
Definition fallback (mypy_compatible : bool) (return_types : list type) : option type :=
  match return_types with
  | [] => None
  | first :: others =>
      if mypy_compatible then Some (fold_left merge_matching_parts others first)
      else if forallb (is_equal_type first) others then Some first else Some Any
  end.

End Fallback.
