(** When two types have values in common: crates/zuban_python/src/type_/overlaps.rs, and the check of comparisons in
    crates/zuban_python/src/file/inference.rs [is_strict_equality_comparison].

    The types are those of [SubtypeModel]; left out are the ones left out there, so callables and TypedDicts too.  An answer is [None] when it
    takes more steps than there are. *)
From Coq Require Import List NArith Bool.
From Verif Require Import TupleModel SubtypeModel.
Import ListNotations.
Open Scope N_scope.

(** [||] and [&&] of answers *)
Definition or_ (a b : option bool) : option bool :=
  match a with Some true => Some true | Some false => b | None => None end.
Definition and_ (a b : option bool) : option bool :=
  match a with Some true => b | Some false => Some false | None => None end.

(** [iter().any(..)] and [iter().all(..)] *)
Fixpoint any_of {A} (f : A -> option bool) (l : list A) : option bool :=
  match l with [] => Some false | x :: l => or_ (f x) (any_of f l) end.
Fixpoint all_of {A} (f : A -> option bool) (l : list A) : option bool :=
  match l with [] => Some true | x :: l => and_ (f x) (all_of f l) end.

(** [overlaps &= ..] in a loop, which does not stop early *)
Fixpoint every {A} (f : A -> option bool) (l : list A) : option bool :=
  match l with
  | [] => Some true
  | x :: l => match f x, every f l with Some a, Some b => Some (a && b) | _, _ => None end
  end.

Section Overlaps.
Variable p : program.
Variable allowlisted : N -> bool.                   (* crates/zuban_python/src/type_/overlaps.rs:18-27 (OVERLAPPING_TYPES_ALLOWLIST) *)
Variable is_super : type -> type -> option bool.    (* [is_super_type_of] *)
Variable is_sub : type -> type -> option bool.      (* [is_sub_type_of] *)
Variable ask : type -> type -> option bool.         (* [overlaps] *)

Definition ask_pair (x : type * type) : option bool := ask (fst x) (snd x).

(** crates/zuban_python/src/type_helpers/class.rs:1053-1055 [mro], the entries that are classes *)
Definition class_entry (t : type) : list (N * list type) := match t with Class c gs => [(c, gs)] | _ => [] end.
Definition class_mro (c : N) (gs : list type) : list (N * list type) :=
  (c, gs) :: flat_map class_entry (map (substitute gs) (bases p c)) ++ [(object p, [])].

(** crates/zuban_python/src/type_helpers/class.rs:1096-1105 [class_in_mro] *)
Definition class_in_mro (c : N) (gs : list type) (d : N) : option (list type) :=
  option_map snd (List.find (fun x => fst x =? d) (class_mro c gs)).

(** The closure [check] in crates/zuban_python/src/type_/overlaps.rs:277-288 (overlaps_class), for two lists of arguments of one class *)
Definition arguments_overlap (gs1 gs2 : list type) : option bool := every ask_pair (combine gs1 gs2).

(** crates/zuban_python/src/type_/overlaps.rs:271-322 [overlaps_class]; the outer [None] is that of the code *)
Definition overlaps_class (c1 : N) (gs1 : list type) (c2 : N) (gs2 : list type) : option (option bool) :=
  match class_in_mro c1 gs1 c2 with
  | Some ds => Some (arguments_overlap ds gs2)
  | None =>
      match class_in_mro c2 gs2 c1 with
      | Some ds => Some (arguments_overlap gs1 ds)
      | None => if allowlisted c1 && allowlisted c2 then Some (Some true) else None
      end
  end.

(** crates/zuban_python/src/type_/overlaps.rs:134-170 [overlaps_type_of_type_against_other] *)
Definition overlaps_type_of (t other : type) : option bool :=
  match other with
  | TypeOf t2 => ask t t2
  | Class c gs =>
      match (match t with Class d _ => metaclass p d | _ => NoMetaclass end) with
      | Metaclass link => ask (Class link []) other
      | _ => or_ (Some (c =? object p)) (and_ (Some (is_metaclass p c)) (ask t other))
      end
  | Any => Some true
  | _ => Some false
  end.

(** The loop of two tuples with a fixed length, crates/zuban_python/src/type_/overlaps.rs:178-198 *)
Definition overlaps_fixed (ts1 ts2 : list type) : option bool :=
  match every ask_pair (combine ts1 ts2) with
  | Some b => Some (b && Nat.eqb (length ts1) (length ts2))
  | None => None
  end.

(** The case of an unpack against a fixed length, crates/zuban_python/src/type_/overlaps.rs:241-264 *)
Definition overlaps_unpack_fixed (w1 : with_unpack type) (ts2 : list type) : option bool :=
  let b := length (before w1) in
  let a := length (after w1) in
  if Nat.ltb (length ts2) (b + a) then Some false
  else
    and_ (all_of ask_pair (combine (before w1) ts2))
      (and_ (all_of ask_pair (combine (rev (after w1)) (rev ts2)))
        match middle w1 with
        | Many t1 => all_of (ask t1) (firstn (length ts2 - a - b) (skipn b ts2))
        | TypeVarTuple _ => Some true
        end).

(** crates/zuban_python/src/type_/overlaps.rs:174-268 [overlaps] of [TupleArgs] *)
Definition overlaps_tuples (a1 a2 : args type) : option bool :=
  match a1, a2 with
  | FixedLen ts1, FixedLen ts2 => overlaps_fixed ts1 ts2
  | ArbitraryLen t1, ArbitraryLen t2 => ask t1 t2
  | ArbitraryLen t1, FixedLen ts2 => all_of (ask t1) ts2
  | FixedLen ts1, ArbitraryLen t2 => all_of (fun t1 => ask t1 t2) ts1
  | WithUnpack u, ArbitraryLen t1 | ArbitraryLen t1, WithUnpack u => all_of (ask t1) (before u ++ after u)
  | WithUnpack w1, WithUnpack w2 =>
      and_ (all_of ask_pair (combine (before w1) (before w2)))
        (and_ (all_of ask_pair (combine (after w1) (after w2)))
          match middle w1, middle w2 with
          | Many t1, Many t2 => ask t1 t2
          | _, _ => Some true
          end)
  | WithUnpack w1, FixedLen ts2 => overlaps_unpack_fixed w1 ts2
  | FixedLen ts1, WithUnpack w2 => overlaps_unpack_fixed w2 ts1
  end.

Definition assignable (t1 t2 : type) : option bool := or_ (is_sub t1 t2) (is_super t1 t2).

(** The last part of [overlaps_internal], after the cases for the second type,
    crates/zuban_python/src/type_/overlaps.rs:94-131 *)
Definition overlaps_first (t1 t2 : type) : option bool :=
  match t1 with
  | Class c1 gs1 =>
      match t2 with
      | Class c2 gs2 => match overlaps_class c1 gs1 c2 gs2 with Some r => r | None => assignable t1 t2 end
      | _ => assignable t1 t2
      end
  | TypeOf s1 => overlaps_type_of s1 t2
  | Literal l1 => ask (Class (fallback p l1) []) t2
  | Tuple a1 => match t2 with Tuple a2 => overlaps_tuples a1 a2 | _ => assignable t1 t2 end
  | TypeVar n => match kind_of p n with Bound b => ask b t2 | _ => assignable t1 t2 end
  | _ => assignable t1 t2
  end.

(** crates/zuban_python/src/type_/overlaps.rs:45-132 [overlaps_internal] *)
Definition overlaps_internal (t1 t2 : type) : option bool :=
  match t1 with
  | Union ts | Intersection ts => any_of (fun t => ask t t2) ts
  | _ =>
      match t2 with
      | Union ts | Intersection ts => any_of (ask t1) ts
      | Any => Some true
      | Literal l2 =>
          match t1 with
          | Literal l1 => Some (same_literal l1 l2)
          | _ => ask t1 (Class (fallback p l2) [])
          end
      | TypeVar n => match kind_of p n with Bound b => ask t1 b | _ => overlaps_first t1 t2 end
      | TypeOf s2 => or_ (overlaps_type_of s2 t1) (overlaps_first t1 t2)
      | _ => overlaps_first t1 t2
      end
  end.

End Overlaps.

Definition to_bool (a : answer) : option bool := option_map holds a.

(** The recursion, with a number of steps.
    crates/zuban_python/src/type_/overlaps.rs:34-42 [overlaps] *)
Fixpoint overlaps (p : program) (allowlisted : N -> bool) (fuel : nat) (t1 t2 : type) : option bool :=
  match fuel with
  | O => None
  | S fuel =>
      overlaps_internal p allowlisted
        (fun t1 t2 => to_bool (run p fuel (Matches Covariant false t1 t2)))
        (fun t1 t2 => to_bool (run p fuel (Matches Contravariant false t1 t2)))
        (overlaps p allowlisted fuel) t1 t2
  end.

(** ** Comparisons under --strict-equality *)

(** What the check knows of the library and of [__eq__] *)
Record library := mk_library {
  list_class : N; mapping : N; bytes_like : N -> bool; listed : N -> bool;
  custom_eq : type -> bool     (* crates/zuban_python/src/file/flow_analysis.rs:1225-1233 [has_custom_special_method] *)
}.

Section Strict.
Variable p : program.
Variable lib : library.

(** crates/zuban_python/src/type_/mod.rs:718-741 [maybe_remove_none, remove_none]; a union is not nested.  One remaining entry
    is no union any more. *)
Definition is_none (t : type) : bool := match t with NoneType => true | _ => false end.
Definition remove_none (t : type) : type :=
  match t with
  | NoneType => Never
  | Union ts =>
      if existsb is_none ts then
        match filter (fun t => negb (is_none t)) ts with [] => Never | [t] => t | us => Union us end
      else t
  | _ => t
  end.

(** crates/zuban_python/src/type_helpers/class.rs:1011-1016 [nth_type_argument] *)
Definition argument (n : nat) (gs : list type) : type := nth n gs Any.

(** [is_strict_equality_comparison] behind the removal of None *)
Definition strict_without_none (again : type -> type -> option bool) (overlap : type -> type -> option bool)
    (t1 t2 : type) : option bool :=
  let rest :=
    match t1, t2 with
    | Tuple (ArbitraryLen i1), Tuple (ArbitraryLen i2) => again i1 i2
    | _, _ => overlap t1 t2
    end in
  match t1, t2 with
  | Class c1 gs1, Class c2 gs2 =>
      if (c1 =? c2) && (c1 =? list_class lib) then again (argument 0 gs1) (argument 0 gs2)
      else if bytes_like lib c1 && bytes_like lib c2 then Some true
      else match class_in_mro p c1 gs1 (mapping lib), class_in_mro p c2 gs2 (mapping lib) with
           | Some map1, Some map2 => and_ (again (argument 0 map1) (argument 0 map2)) (again (argument 1 map1) (argument 1 map2))
           | _, _ => rest
           end
  | _, _ => rest
  end.

(** True where nothing is reported.
    crates/zuban_python/src/file/inference.rs:2859-2911 [is_strict_equality_comparison] *)
Fixpoint strict_equality (fuel : nat) (t1 t2 : type) : option bool :=
  match fuel with
  | O => None
  | S fuel =>
      if is_none t1 || is_none t2 || custom_eq lib t1 || custom_eq lib t2 then Some true
      else strict_without_none (strict_equality fuel) (overlaps p (listed lib) fuel) (remove_none t1) (remove_none t2)
  end.

End Strict.
