(** Assignability: crates/zuban_python/src/type_/matching.rs, crates/zuban_python/src/match_.rs,
    crates/zuban_python/src/matching/generic.rs, without type variables that are being inferred ([Matcher::default()]).

    Left out are the types that are not listed in [type]: callables (C50), overloads, named tuples, TypedDicts, [Self],
    ParamSpecs, recursive aliases, modules and the few special ones.  The flag [with_any] of a match is not kept; strict
    optional is on. *)
From Coq Require Import List NArith Bool.
From Verif Require Import TupleModel.
Import ListNotations.
Open Scope N_scope.

(** crates/zuban_python/src/type_/mod.rs:2163-2168 [LiteralKind]; the text of a string is a number here *)
Inductive literal := LInt (n : N) (negative : bool) | LBool (b : bool) | LStr (s : N) | LBytes (s : N).

(** crates/zuban_python/src/type_/mod.rs:492-529 [Type] *)
Inductive type :=
| Any | NoneType | Never
| Class (c : N) (gs : list type)
| Dataclass (c : N) (gs : list type)
| Literal (l : literal)
| LiteralString
| Tuple (a : args type)
| Union (ts : list type)
| Intersection (ts : list type)
| Enum (e : N)
| EnumMember (e m : N)
| NewType (n : N)
| TypeVar (n : N)
| TypeOf (t : type).

(** crates/zuban_python/src/type_/type_var_likes.rs:970-974 [TypeVarKind] *)
Inductive kind := Unrestricted | Bound (t : type) | Constraints (ts : list type).

(** crates/zuban_python/src/type_/type_var_likes.rs:379-383 [Variance] *)
Inductive variance := Invariant | Covariant | Contravariant.

(** crates/zuban_python/src/type_/type_var_likes.rs:394-400 [invert] *)
Definition invert (v : variance) : variance :=
  match v with Covariant => Contravariant | Contravariant => Covariant | Invariant => Invariant end.

(** crates/zuban_python/src/database.rs:1792-1796 [MetaclassState] *)
Inductive metaclass_state := NoMetaclass | UnknownMetaclass | Metaclass (c : N).

(** crates/zuban_python/src/match_.rs:45-53 [Match] *)
Inductive outcome := No (similar reason : bool) | Yes.

Definition no : outcome := No false false.

(** crates/zuban_python/src/match_.rs:114-116 [bool] *)
Definition holds (m : outcome) : bool := match m with Yes => true | No _ _ => false end.

Definition of_bool (b : bool) : outcome := if b then Yes else no.

(** [Match::False { reason: MismatchReason::None, similar: false }] *)
Definition plain (m : outcome) : bool := match m with No false false => true | _ => false end.

(** crates/zuban_python/src/match_.rs:118-129 [similar_if_false] *)
Definition similar_if_false (m : outcome) : outcome := match m with No _ reason => No true reason | Yes => Yes end.

(** crates/zuban_python/src/match_.rs:168-190 [bitand] *)
Definition and (m n : outcome) : outcome :=
  match m with
  | Yes => n
  | No true reason => match n with No false _ => No false reason | _ => No true reason end
  | No false reason => No false reason
  end.

(** What is asked: [None] is an answer that takes more steps than there are *)
Definition answer := option outcome.

Definition then_ (a : answer) (f : outcome -> answer) : answer := match a with Some m => f m | None => None end.

(** crates/zuban_python/src/match_.rs:132-151 [or] *)
Definition or_else (a : answer) (b : unit -> answer) : answer :=
  then_ a (fun m => if holds m then Some m
                    else then_ (b tt) (fun n => Some (if holds n || plain m then n else m))).

Definition both (a b : answer) : answer := then_ a (fun m => then_ b (fun n => Some (and m n))).

(** crates/zuban_python/src/match_.rs:85-97 [any] *)
Fixpoint any_from {A} (f : A -> answer) (l : list A) (result : outcome) : answer :=
  match l with
  | [] => Some result
  | x :: l => then_ (f x) (fun r => if holds r then Some r
      else any_from f l (match result with No true _ => result | _ => r end))
  end.

Definition any {A} (f : A -> answer) (l : list A) : answer := any_from f l Yes.

(** crates/zuban_python/src/match_.rs:99-112 [all] *)
Fixpoint all {A} (f : A -> answer) (l : list A) : answer :=
  match l with
  | [] => Some Yes
  | x :: l => then_ (f x) (fun r => if holds r then all f l else Some no)
  end.

(** [matches &= ..] in a loop, which does not stop early *)
Fixpoint each {A} (f : A -> answer) (l : list A) : answer :=
  match l with
  | [] => Some Yes
  | x :: l => then_ (f x) (fun r => then_ (each f l) (fun rs => Some (and r rs)))
  end.

(** The questions that are asked again and again *)
Inductive question :=
| Matches (v : variance) (reverse : bool) (t1 t2 : type)
| UnionSuper (reverse : bool) (ts1 : list type) (t2 : type)
| ClassAgainst (v : variance) (reverse : bool) (c1 : N) (gs1 : list type) (t2 : type)
| Promotion (reverse : bool) (t1 : type) (c2 : N).

(** [replace_type_var_likes] in crates/zuban_python/src/type_helpers/class.rs:2464-2507 [apply_generics_to_base_class]: a base
    class names the type variables of its class by their index. *)
Fixpoint substitute (gs : list type) (t : type) : type :=
  match t with
  | Class c ts => Class c (map (substitute gs) ts)
  | Dataclass c ts => Dataclass c (map (substitute gs) ts)
  | Tuple (FixedLen ts) => Tuple (FixedLen (map (substitute gs) ts))
  | Tuple (ArbitraryLen t) => Tuple (ArbitraryLen (substitute gs t))
  | Tuple (WithUnpack (mk_unpack b (TypeVarTuple n) a)) =>
      Tuple (WithUnpack (mk_unpack (map (substitute gs) b) (TypeVarTuple n) (map (substitute gs) a)))
  | Tuple (WithUnpack (mk_unpack b (Many t) a)) =>
      Tuple (WithUnpack (mk_unpack (map (substitute gs) b) (Many (substitute gs t)) (map (substitute gs) a)))
  | Union ts => Union (map (substitute gs) ts)
  | Intersection ts => Intersection (map (substitute gs) ts)
  | TypeVar n => nth (N.to_nat n) gs Any
  | TypeOf t => TypeOf (substitute gs t)
  | _ => t
  end.

(** What is known of the classes and the other definitions of a program *)
Record program := mk_program {
  object : N; bool_class : N; int_class : N; str_class : N; bytes_class : N; tuple_class : N;
  bare_type : N; generic_alias : N;
  variances : N -> list variance;               (* of the type variables of a class *)
  bases : N -> list type;                       (* the MRO of a class behind the class, without object *)
  metaclass : N -> metaclass_state;
  is_metaclass : N -> bool;
  incomplete : N -> bool;                       (* a base class is unknown *)
  promote_to : N -> option N;
  is_protocol : N -> bool;
  check_protocol : N -> list type -> type -> outcome;
  enum_class : N -> N;
  newtype_type : N -> type;
  kind_of : N -> kind;                          (* of a type variable *)
  entries : args type -> type;                  (* the type of all items of a tuple together *)
  same_union : list type -> list type -> bool   (* both are equal, and have no type variables *)
}.

Section Subtypes.
Variable p : program.
Variable ask : question -> answer.

Definition matches (v : variance) (reverse : bool) (t1 t2 : type) : answer := ask (Matches v reverse t1 t2).
Definition is_super_type_of (reverse : bool) (t1 t2 : type) : answer := matches Covariant reverse t1 t2.
Definition is_sub_type_of (reverse : bool) (t1 t2 : type) : answer := matches Contravariant reverse t1 t2.
Definition is_same_type (reverse : bool) (t1 t2 : type) : answer := matches Invariant reverse t1 t2.

Definition is_any (t : type) : bool := match t with Any => true | _ => false end.

(** crates/zuban_python/src/type_/mod.rs:554-561 [is_union_like] *)
Fixpoint is_union_like (t : type) : bool :=
  match t with Union _ => true | TypeOf t => is_union_like t | _ => false end.

(** crates/zuban_python/src/type_/mod.rs:1479-1489 [is_subclassable] *)
Definition is_subclassable (t : type) : bool :=
  match t with Class _ _ | Tuple _ | NewType _ | Dataclass _ _ => true | _ => false end.

(** crates/zuban_python/src/type_/mod.rs:2226-2233 [fallback_node_ref] *)
Definition fallback (l : literal) : N :=
  match l with LInt _ _ => int_class p | LBool _ => bool_class p | LStr _ => str_class p | LBytes _ => bytes_class p end.

(** [literal1.value(db) == literal2.value(db)] *)
Definition same_literal (l1 l2 : literal) : bool :=
  match l1, l2 with
  | LInt n s, LInt m r => (n =? m) && eqb s r
  | LBool b, LBool c => eqb b c
  | LStr s, LStr r => s =? r
  | LBytes s, LBytes r => s =? r
  | _, _ => false
  end.

(** crates/zuban_python/src/type_/union.rs:381-393 [bool_literal_count] *)
Definition is_bool_literal (t : type) : bool := match t with Literal (LBool _) => true | _ => false end.
Definition bool_literal_count (ts : list type) : nat := length (filter is_bool_literal ts).

(** crates/zuban_python/src/type_/mod.rs:1585-1650 [mro] with [returned_object] unset, the items of
    crates/zuban_python/src/type_helpers/class.rs:2417-2437 [next]; behind a literal comes its class
    (crates/zuban_python/src/python_state.rs:1528-1542 [calculate_mro_for_class]) *)
Definition behind (t : type) : list type :=
  match t with
  | Class c gs | Dataclass c gs => map (substitute gs) (bases p c)
  | Literal l => Class (fallback l) [] :: map (substitute []) (bases p (fallback l))
  | Tuple a => map (substitute [entries p a]) (bases p (tuple_class p))
  | Enum e | EnumMember e _ => map (substitute []) (bases p (enum_class p e))
  | _ => []
  end.

Definition mro (t : type) : list type := t :: behind t ++ [Class (object p) []].

(** crates/zuban_python/src/matching/generic.rs:66-99 [matches] of two type arguments *)
Definition generic_matches (v : variance) (reverse : bool) (t1 t2 : type) : answer :=
  if reverse then matches (invert v) false t2 t1 else matches v false t1 t2.

(** The arguments of two classes beside the type variables *)
Fixpoint zip3 {A B C} (l : list A) (m : list B) (n : list C) : list (A * B * C) :=
  match l, m, n with x :: l, y :: m, z :: n => (x, y, z) :: zip3 l m n | _, _, _ => [] end.

(** The variance of a type argument in [matches_class] *)
Definition variance_of_argument (v declared : variance) : variance :=
  match v with Covariant => declared | Contravariant => invert declared | Invariant => Invariant end.

Definition argument_matches (v : variance) (reverse : bool) (x : type * type * variance) : answer :=
  generic_matches (variance_of_argument v (snd x)) reverse (fst (fst x)) (snd (fst x)).

(** crates/zuban_python/src/type_/matching.rs:683-748 [matches_class]; the reasons for a mismatch of lists and dicts are left out *)
Definition matches_class (v : variance) (reverse : bool) (c1 : N) (gs1 : list type) (c2 : N) (gs2 : list type) : answer :=
  if negb (c1 =? c2) then Some no
  else match variances p c1 with
       | [] => Some Yes
       | vs => then_ (each (argument_matches v reverse) (zip3 gs1 gs2 vs)) (fun m => Some (similar_if_false m))
       end.

(** crates/zuban_python/src/type_/matching.rs:750-888 [matches_class_against_type]; a protocol is never type itself, so the early return for protocols is none here *)
Definition matches_class_against_type (v : variance) (reverse : bool) (c1 : N) (gs1 : list type) (t2 : type) : answer :=
  match t2 with
  | Class c2 gs2 => matches_class v reverse c1 gs1 c2 gs2
  | TypeOf t =>
      or_else
        match t with
        | TypeVar n =>
            match kind_of p n with
            | Bound bound => ask (ClassAgainst v reverse c1 gs1 (TypeOf bound))
            | Constraints _ => Some Yes
            | Unrestricted => Some no
            end
        | Class c2 gs2 =>
            match metaclass p c2 with
            | Metaclass link =>
                if is_protocol p c1 then Some no
                else or_else (matches v reverse (Class c1 gs1) (Class link []))
                  (fun _ => Some (of_bool ((c1 =? generic_alias p) && negb (match gs2 with [] => true | _ => false end)
                                           && match v with Covariant => true | _ => false end)))
            | UnknownMetaclass =>
                or_else (Some (of_bool (is_metaclass p c1 || incomplete p c1)))
                  (fun _ => Some (of_bool ((c1 =? generic_alias p) && negb (match gs2 with [] => true | _ => false end)
                                           && match v with Covariant => true | _ => false end)))
            | NoMetaclass =>
                Some (of_bool ((c1 =? generic_alias p) && negb (match gs2 with [] => true | _ => false end)
                               && match v with Covariant => true | _ => false end))
            end
        | _ => Some no
        end
        (fun _ => Some (of_bool (c1 =? bare_type p)))
  | Literal l =>
      match v with
      | Covariant => matches_class v reverse c1 gs1 (fallback l) []
      | _ => Some no
      end
  | Union ts => Some (of_bool ((c1 =? bool_class p) && Nat.eqb (bool_literal_count ts) 2 && Nat.eqb (length ts) 2))
  | LiteralString => Some (of_bool ((c1 =? str_class p) && match v with Covariant => true | _ => false end))
  | _ => Some no
  end.

(** crates/zuban_python/src/type_/matching.rs:622-681 [union_is_super_type_of] *)
Definition bound_matches (reverse : bool) (ts1 : list type) (t2 : type) : answer :=
  match t2 with
  | TypeVar n => match kind_of p n with Bound bound => ask (UnionSuper reverse ts1 bound) | _ => Some no end
  | _ => Some no
  end.

Definition union_is_super_type_of (reverse : bool) (ts1 : list type) (t2 : type) : answer :=
  let any_member :=
    then_ (bound_matches reverse ts1 t2) (fun m => if holds m then Some m
      else any (fun t1 => is_super_type_of reverse t1 t2) ts1) in
  match t2 with
  | Union ts2 => if same_union p ts1 ts2 then Some Yes else all (fun t => ask (UnionSuper reverse ts1 t)) ts2
  | TypeOf (Union ts) => ask (UnionSuper reverse ts1 (Union (map TypeOf ts)))
  | Class c2 _ => if (c2 =? bool_class p) && Nat.eqb (bool_literal_count ts1) 2 then Some Yes else any_member
  | _ => any_member
  end.

(** [matches_internal] of a union, crates/zuban_python/src/type_/matching.rs:114-121 *)
Definition union_internal (v : variance) (reverse : bool) (ts1 : list type) (t2 : type) : answer :=
  match v with
  | Invariant => both (is_super_type_of reverse (Union ts1) t2) (is_sub_type_of reverse (Union ts1) t2)
  | _ => union_is_super_type_of reverse ts1 t2
  end.

(** The items of two lists side by side, and what is left of the second *)
Definition pairs {A} (l m : list A) : list (A * A) := combine l m.
Definition rest {A} (l m : list A) : list A := skipn (length l) m.

(** crates/zuban_python/src/matching/matcher/mod.rs:522-548 [match_or_add_type_var_tuple] without inference and without a class *)
Definition type_var_tuple_matches (n : N) (a : args type) : outcome :=
  of_bool match a with
  | WithUnpack (mk_unpack [] (TypeVarTuple m) []) => n =? m
  | WithUnpack _ => false
  | ArbitraryLen t => is_any t
  | FixedLen _ => false
  end.

Definition item_matches (v : variance) (reverse : bool) (x : type * type) : answer := matches v reverse (fst x) (snd x).

(** The items of [ts] all against one type *)
Definition against (v : variance) (reverse : bool) (t1 : type) (ts : list type) : answer := each (matches v reverse t1) ts.

(** crates/zuban_python/src/type_/matching.rs:1079-1107 [match_arbitrary_len_vs_unpack] *)
Definition match_arbitrary_len_vs_unpack (v : variance) (reverse : bool) (t1 : type) (w : with_unpack type) : answer :=
  both (both (against v reverse t1 (before w))
             match middle w with
             | TypeVarTuple n => Some (type_var_tuple_matches n (ArbitraryLen t1))
             | Many t2 => matches v reverse t1 t2
             end)
       (against v reverse t1 (after w)).

(** crates/zuban_python/src/type_/matching.rs:1132-1317 [match_unpack_internal]; a mismatch is only returned, not reported *)
Definition match_unpack (v : variance) (reverse : bool) (w1 : with_unpack type) (a2 : args type) : answer :=
  match a2 with
  | FixedLen ts2 =>
      let behind_before := rest (before w1) ts2 in
      let backwards := rev behind_before in
      let left := rev (rest (after w1) backwards) in
      then_ (both (each (item_matches v reverse) (pairs (before w1) ts2))
                  (each (item_matches v reverse) (pairs (rev (after w1)) backwards))) (fun m =>
        if Nat.ltb (length ts2) (length (before w1) + length (after w1)) then Some no
        else both (Some m)
          match middle w1 with
          | TypeVarTuple n => Some (type_var_tuple_matches n (FixedLen left))
          | Many t1 => against v reverse t1 left
          end)
  | WithUnpack w2 =>
      let before_left := rest (before w1) (before w2) in
      let after_left := rev (rest (after w1) (rev (after w2))) in
      then_ (both (each (item_matches v reverse) (pairs (before w1) (before w2)))
                  (each (item_matches v reverse) (pairs (rev (after w1)) (rev (after w2))))) (fun m =>
        match middle w1 with
        | TypeVarTuple n =>
            if Nat.ltb (length (before w2)) (length (before w1)) then Some no
            else if Nat.ltb (length (after w2)) (length (after w1)) then Some no
            else Some (and m (type_var_tuple_matches n (WithUnpack (mk_unpack before_left (middle w2) after_left))))
        | Many t1 =>
            both (both (both (Some m) (against v reverse t1 before_left)) (against v reverse t1 after_left))
              match middle w2 with
              | TypeVarTuple n => Some (type_var_tuple_matches n (ArbitraryLen t1))
              | Many t2 => matches v reverse t1 t2
              end
        end)
  | ArbitraryLen t2 =>
      if is_any t2 then Some Yes
      else match before w1, after w1 with
           | [], [] => match middle w1 with
                       | TypeVarTuple n => Some (type_var_tuple_matches n (ArbitraryLen t2))
                       | Many _ => Some Yes
                       end
           | _, _ => Some no
           end
  end.

(** crates/zuban_python/src/type_/matching.rs:1039-1077 [match_tuple_type_arguments_internal] *)
Definition match_tuple (v : variance) (reverse : bool) (a1 a2 : args type) : answer :=
  match a1, a2 with
  | FixedLen ts1, FixedLen ts2 =>
      if Nat.eqb (length ts1) (length ts2) then each (item_matches v reverse) (pairs ts1 ts2) else Some no
  | ArbitraryLen t1, ArbitraryLen t2 => matches v reverse t1 t2
  | WithUnpack w1, _ => match_unpack v reverse w1 a2
  | ArbitraryLen t1, WithUnpack w2 => match_arbitrary_len_vs_unpack v reverse t1 w2
  | FixedLen _, WithUnpack _ => Some no
  | FixedLen _, ArbitraryLen t2 => Some (of_bool (is_any t2))
  | ArbitraryLen t1, FixedLen ts2 =>
      match v with
      | Invariant => Some (of_bool (is_any t1))
      | _ => all (matches v reverse t1) ts2
      end
  end.

(** crates/zuban_python/src/type_/matching.rs:25-284 [matches_internal], for a variance other than contravariant *)
Definition matches_internal (v : variance) (reverse : bool) (t1 t2 : type) : answer :=
  match t1 with
  | Class c1 gs1 => matches_class_against_type v reverse c1 gs1 t2
  | TypeOf s1 =>
      match t2 with
      | TypeOf (NewType _) => Some no
      | TypeOf s2 => then_ (matches v reverse s1 s2) (fun m => Some (if is_union_like s2 then m else similar_if_false m))
      | Union _ => match s1 with Union ts => union_internal v reverse (map TypeOf ts) t2 | _ => Some no end
      | _ => match s1, t2 with Any, Class c2 _ => Some (of_bool (is_metaclass p c2)) | _, _ => Some no end
      end
  | TypeVar n => Some (of_bool (match t2 with TypeVar m => n =? m | _ => false end))
  | NoneType => Some (of_bool (match t2 with NoneType => true | _ => false end))
  | Any => Some Yes
  | Never => Some (of_bool (match t2 with Never => true | _ => false end))
  | Tuple a1 => match t2 with Tuple a2 => then_ (match_tuple v reverse a1 a2) (fun m => Some (similar_if_false m)) | _ => Some no end
  | Union ts1 => union_internal v reverse ts1 t2
  | Literal l1 => Some (of_bool (match t2 with Literal l2 => same_literal l1 l2 | _ => false end))
  | LiteralString => Some (of_bool (match t2 with LiteralString | Literal (LStr _) => true | _ => false end))
  | NewType n => Some (of_bool (match t2 with NewType m => n =? m | _ => false end))
  | Dataclass c1 gs1 => match t2 with Dataclass c2 gs2 => matches_class Covariant reverse c1 gs1 c2 gs2 | _ => Some no end
  | Enum e1 =>
      Some (of_bool (match t2 with
        | Enum e2 => e1 =? e2
        | EnumMember e2 _ => match v with Covariant => e1 =? e2 | _ => false end
        | _ => false
        end))
  | EnumMember e1 m1 => Some (of_bool (match t2 with EnumMember e2 m2 => (e1 =? e2) && (m1 =? m2) | _ => false end))
  | Intersection ts1 =>
      match v with
      | Invariant => both (is_super_type_of reverse t1 t2) (is_sub_type_of reverse t1 t2)
      | _ => all (fun t => matches v reverse t t2) ts1
      end
  end.

(** crates/zuban_python/src/type_/matching.rs:508-620 [check_other_side] *)
Definition check_other_side (v : variance) (reverse : bool) (t1 t2 : type) : answer :=
  match t2 with
  | Any => Some Yes
  | TypeVar n =>
      match v with
      | Covariant =>
          match kind_of p n with
          | Unrestricted => Some no
          | Bound bound => matches v reverse t1 bound
          | Constraints ts => then_ (all (matches v false t1) ts) (fun m => Some (of_bool (holds m)))
          end
      | _ => Some no
      end
  | Union ts2 =>
      if is_union_like t1 then Some no
      else let m := all (is_super_type_of reverse t1) ts2 in
           match v with Invariant => both m (is_sub_type_of reverse t1 t2) | _ => m end
  | Intersection ts2 => match v with Covariant => any (matches v reverse t1) ts2 | _ => Some no end
  | NewType n => match v with Covariant => matches v reverse t1 (newtype_type p n) | _ => Some no end
  | Never => Some (of_bool (match v with Covariant => true | _ => false end))
  | _ => Some no
  end.

(** crates/zuban_python/src/type_/matching.rs:439-464 [check_class_promotion] *)
Definition check_class_promotion (reverse : bool) (t1 : type) (c2 : N) : answer :=
  match t1 with
  | NoneType => Some no
  | _ =>
      match promote_to p c2 with
      | Some d => or_else (is_same_type reverse t1 (Class d [])) (fun _ => ask (Promotion reverse t1 d))
      | None => Some no
      end
  end.

(** crates/zuban_python/src/type_/matching.rs:407-436 [check_promotion] *)
Definition check_promotion (reverse : bool) (t1 t2 : type) : answer :=
  match t2 with
  | Class c2 _ => if incomplete p c2 && is_subclassable t1 then Some Yes else ask (Promotion reverse t1 c2)
  | Literal l => ask (Promotion reverse t1 (fallback l))
  | Enum e | EnumMember e _ => ask (Promotion reverse t1 (enum_class p e))
  | _ => Some no
  end.

(** The first entry of the MRO that gives more than a plain mismatch *)
Fixpoint match_mro (reverse : bool) (t1 : type) (l : list type) : answer :=
  match l with
  | [] => Some no
  | t2 :: l => then_ (matches_internal Covariant reverse t1 t2) (fun m => if plain m then match_mro reverse t1 l else Some m)
  end.

(** The types that look at the MRO of the other *)
Definition looks_at_mro (t : type) : bool := match t with Class _ _ | Tuple _ | Dataclass _ _ => true | _ => false end.

Definition protocol_matches (t1 t2 : type) : answer :=
  match t1 with Class c1 gs1 => if is_protocol p c1 then Some (check_protocol p c1 gs1 t2) else Some no | _ => Some no end.

(** crates/zuban_python/src/type_/matching.rs:303-405 [is_super_type_of] *)
Definition super_type_of (reverse : bool) (t1 t2 : type) : answer :=
  if negb (looks_at_mro t1) then
    then_ (matches_internal Covariant reverse t1 t2) (fun m =>
      if plain m then or_else (Some m) (fun _ => check_other_side Covariant reverse t1 t2) else Some m)
  else
    then_ (match_mro reverse t1 (mro t2)) (fun m =>
      if plain m then
        or_else (or_else (or_else (Some m) (fun _ => protocol_matches t1 t2))
                         (fun _ => check_other_side Covariant reverse t1 t2))
                (fun _ => check_promotion reverse t1 t2)
      else Some m).

(** crates/zuban_python/src/type_/matching.rs:470-483 [is_same_type] *)
Definition same_type (reverse : bool) (t1 t2 : type) : answer :=
  or_else (matches_internal Invariant reverse t1 t2) (fun _ => check_other_side Invariant reverse t1 t2).

(** crates/zuban_python/src/type_/matching.rs:494-506 [matches], crates/zuban_python/src/type_/matching.rs:286-293 [is_sub_type_of] *)
Definition respond (q : question) : answer :=
  match q with
  | Matches Covariant reverse t1 t2 => super_type_of reverse t1 t2
  | Matches Invariant reverse t1 t2 => same_type reverse t1 t2
  | Matches Contravariant reverse t1 t2 => super_type_of (negb reverse) t2 t1
  | UnionSuper reverse ts1 t2 => union_is_super_type_of reverse ts1 t2
  | ClassAgainst v reverse c1 gs1 t2 => matches_class_against_type v reverse c1 gs1 t2
  | Promotion reverse t1 c2 => check_class_promotion reverse t1 c2
  end.

End Subtypes.

(** The recursion, with a number of steps *)
Fixpoint run (p : program) (fuel : nat) (q : question) : answer :=
  match fuel with
  | O => None
  | S fuel => respond p (run p fuel) q
  end.

(** crates/zuban_python/src/type_/matching.rs:299-301 [is_simple_super_type_of]: [t1] accepts a value of type [t2]. *)
Definition accepts (p : program) (t1 t2 : type) : Prop :=
  exists fuel, run p fuel (Matches Covariant false t1 t2) = Some Yes.

Definition rejects (p : program) (t1 t2 : type) : Prop :=
  exists fuel s r, run p fuel (Matches Covariant false t1 t2) = Some (No s r).
