(** How a test narrows the type of what is tested: crates/zuban_python/src/file/flow_analysis.rs.  Here are the unions that are built, and
    comparisons of [len(x)] with an int literal.

    The types are those of [SubtypeModel]; a named tuple is a class.  An int literal that is the largest machine word is not
    treated apart. *)
From Coq Require Import List NArith ZArith Bool.
From Verif Require Import TupleModel SubtypeModel.
Import ListNotations.
Open Scope N_scope.

(** ** Equality: [derive(PartialEq)] *)
Section Lists.
Context {A : Type}.
Variable same : A -> A -> bool.

Fixpoint same_list (l m : list A) : bool :=
  match l, m with
  | [], [] => true
  | x :: l, y :: m => same x y && same_list l m
  | _, _ => false
  end.

(** crates/zuban_python/src/type_/tuple.rs:477-480 [TupleUnpack] *)
Definition same_unpack (u w : unpack A) : bool :=
  match u, w with
  | TypeVarTuple n, TypeVarTuple m => n =? m
  | Many t, Many s => same t s
  | _, _ => false
  end.

(** crates/zuban_python/src/type_/tuple.rs:542-546 [TupleArgs] *)
Definition same_args (a b : args A) : bool :=
  match a, b with
  | FixedLen l, FixedLen m => same_list l m
  | ArbitraryLen t, ArbitraryLen s => same t s
  | WithUnpack (mk_unpack l u m), WithUnpack (mk_unpack l' w m') => same_list l l' && same_unpack u w && same_list m m'
  | _, _ => false
  end.
End Lists.

(** crates/zuban_python/src/type_/mod.rs:492-529 [Type], crates/zuban_python/src/type_/union.rs:338-341 [UnionType],
    crates/zuban_python/src/type_/mod.rs:2145-2148 [Literal] *)
Fixpoint same (t u : type) : bool :=
  match t, u with
  | Any, Any | NoneType, NoneType | Never, Never | LiteralString, LiteralString => true
  | Class c gs, Class d hs | Dataclass c gs, Dataclass d hs => (c =? d) && same_list same gs hs
  | Literal l, Literal m => same_literal l m
  | Tuple a, Tuple b => same_args same a b
  | Union ts, Union us | Intersection ts, Intersection us => same_list same ts us
  | Enum e, Enum f => e =? f
  | EnumMember e m, EnumMember f n => (e =? f) && (m =? n)
  | NewType n, NewType m | TypeVar n, TypeVar m => n =? m
  | TypeOf t, TypeOf u => same t u
  | _, _ => false
  end.

(** ** Unions *)
Definition is_never (t : type) : bool := match t with Never => true | _ => false end.

(** crates/zuban_python/src/type_/mod.rs:1308-1312 [has_type_vars] *)
Fixpoint has_type_vars (t : type) : bool :=
  match t with
  | TypeVar _ => true
  | Class _ ts | Dataclass _ ts | Union ts | Intersection ts | Tuple (FixedLen ts) => existsb has_type_vars ts
  | Tuple (ArbitraryLen t) | TypeOf t => has_type_vars t
  | Tuple (WithUnpack (mk_unpack _ (TypeVarTuple _) _)) => true
  | Tuple (WithUnpack (mk_unpack b (Many t) a)) => existsb has_type_vars b || has_type_vars t || existsb has_type_vars a
  | _ => false
  end.

(** The key of crates/zuban_python/src/type_/union.rs:370-379 [sort_for_priority], plus one *)
Definition priority (t : type) : N :=
  match t with
  | Literal _ | EnumMember _ _ => 0
  | NoneType => 3
  | TypeVar _ => 4
  | Any => 5
  | Intersection _ => 1
  | _ => if has_type_vars t then 2 else 1
  end.

Fixpoint insert (t : type) (ts : list type) : list type :=
  match ts with
  | [] => [t]
  | u :: ts => if priority t <=? priority u then t :: u :: ts else u :: insert t ts
  end.

(** crates/zuban_python/src/type_/union.rs:370-379 [sort_for_priority] *)
Fixpoint sort_for_priority (ts : list type) : list type :=
  match ts with
  | [] => []
  | t :: ts => insert t (sort_for_priority ts)
  end.

Definition mem (t : type) (ts : list type) : bool := existsb (fun u => same u t) ts.

Definition push (ts : list type) (t : type) : list type := if mem t ts then ts else ts ++ [t].

(** crates/zuban_python/src/type_/mod.rs:1066-1130 [union], crates/zuban_python/src/type_/mod.rs:1132-1134 [union_in_place] *)
Definition join (t u : type) : type :=
  match t with
  | Union ts =>
      Union (sort_for_priority (match u with Union us => fold_left push us ts | Never => ts | _ => push ts u end))
  | Never => u
  | _ =>
      match u with
      | Union us => if mem t us then Union us else Union (sort_for_priority (us ++ [t]))
      | _ => if same t u || is_never u then t else Union (sort_for_priority [t; u])
      end
  end.

(** crates/zuban_python/src/type_/mod.rs:778-783 [iter_with_unpacked_unions] *)
Definition parts (t : type) : list type := match t with Union ts => ts | Never => [] | _ => [t] end.

(** crates/zuban_python/src/type_/mod.rs:539-552 [from_union_entries] *)
Definition from_union_entries (ts : list type) : type :=
  match ts with [] => Never | [t] => t | _ => Union (sort_for_priority ts) end.

(** crates/zuban_python/src/type_/mod.rs:806-826 [retain_in_union] *)
Definition retain_in_union (keep : type -> bool) (t : type) : type :=
  match t with
  | Union ts => from_union_entries (filter keep ts)
  | Never => Never
  | _ => if keep t then t else Never
  end.

(** ** [len(x)] *)
(** crates/zuban_python/src/file/flow_analysis.rs:5538-5544 [LenNarrowing] *)
Inductive len_narrowing := Equals | GreaterThan | LowerThan | GreaterEquals | LowerEquals.

(** The comparison operators *)
Inductive operator := OpEq | OpNe | OpLt | OpGt | OpLe | OpGe.

(** crates/zuban_python/src/file/flow_analysis.rs:5557-5565 [invert] of [LenNarrowing] *)
Definition invert_len (k : len_narrowing) : len_narrowing :=
  match k with
  | Equals => Equals
  | GreaterThan => LowerThan
  | LowerThan => GreaterThan
  | GreaterEquals => LowerEquals
  | LowerEquals => GreaterEquals
  end.

(** crates/zuban_python/src/file/flow_analysis.rs:65 [MAX_PRECISE_TUPLE_SIZE] *)
Definition max_precise_tuple_size : N := 8.

Definition len (ts : list type) : N := N.of_nat (length ts).

(** crates/zuban_python/src/file/flow_analysis.rs:5630-5639 [matches_fixed_len_tuple_len] *)
Definition matches_fixed_len (len n : N) (k : len_narrowing) : bool :=
  match k with
  | Equals => len =? n
  | GreaterThan => n <? len
  | LowerThan => len <? n
  | GreaterEquals => n <=? len
  | LowerEquals => len <=? n
  end.

(** [lower_than] in crates/zuban_python/src/file/flow_analysis.rs:5641-5751 [narrow_len_for_tuples], with the value of [invert] afterwards *)
Definition lower_than (n : N) (k : len_narrowing) : option N * bool :=
  match k with
  | Equals => (None, false)
  | GreaterThan => (Some (n + 1), true)
  | LowerThan => (Some n, false)
  | GreaterEquals => (Some n, true)
  | LowerEquals => (Some (n + 1), false)
  end.

(** What becomes of a tuple: other types are there instead (true is returned), it stays (false is returned), or there is no answer, because
    the difference of two lengths is negative *)
Inductive narrowed := Crash | Instead (ts : list type) | Stays.

Definition unwrap_or (d : N) (o : option N) : N := match o with Some n => n | None => d end.

Definition repeated (t : type) (n : N) : list type := repeat t (N.to_nat n).

(** [0..n] *)
Definition up_to (n : N) : list N := map N.of_nat (seq 0 (N.to_nat n)).

Definition difference (a b : N) : option N := if a <? b then None else Some (a - b).

Definition of_fixed_len (ts : list type) : type := Tuple (FixedLen ts).

Definition of_variable_len (b : list type) (t : type) (a : list type) : type := Tuple (WithUnpack (mk_unpack b (Many t) a)).

(** crates/zuban_python/src/file/flow_analysis.rs:5641-5751 [narrow_len_for_tuples] *)
Definition narrow_len_for_tuples (n : N) (a : args type) (negative : bool) (k : len_narrowing) : narrowed :=
  let invert := snd (lower_than n k) in
  match a with
  | FixedLen ts => if eqb (matches_fixed_len (len ts) n k) negative then Instead [] else Stays
  | ArbitraryLen t =>
      if n <=? max_precise_tuple_size then
        match fst (lower_than n k) with
        | Some lower =>
            if 0 <? lower then
              if eqb invert negative then Instead (map (fun i => of_fixed_len (repeated t i)) (up_to lower))
              else Instead [of_variable_len (repeated t lower) t []]
            else if eqb invert negative then Instead [] else Stays
        | None => if eqb negative invert then Instead [of_fixed_len (repeated t n)] else Stays
        end
      else Stays
  | WithUnpack (mk_unpack b middle a) =>
      let min_len := len b + len a in
      let lower := fst (lower_than n k) in
      if (unwrap_or (n + 1) lower <=? min_len) && eqb invert negative then Instead []
      else if max_precise_tuple_size <? unwrap_or n lower then Stays
      else
        match middle with
        | TypeVarTuple _ => Stays
        | Many t =>
            let fixed i := of_fixed_len (b ++ repeated t i ++ a) in
            match lower with
            | Some lower =>
                match difference lower min_len with
                | None => Crash
                | Some more =>
                    if eqb invert negative then Instead (map fixed (up_to more))
                    else Instead [of_variable_len (b ++ repeated t more) t a]
                end
            | None =>
                if negative then Stays
                else match difference n min_len with None => Crash | Some more => Instead [fixed more] end
            end
        end
  end.

Section Len.
(** The number of fields of a class that is a named tuple or has one as a base: crates/zuban_python/src/type_helpers/class.rs
    [maybe_named_tuple_base] *)
Variable named_tuple : N -> option N.

(** One round of the loop of [retain] in [narrow_len]; [None] is a crash *)
Definition narrow_len_part (n : N) (k : len_narrowing) (negative : bool) (out : option type) (t : type) : option type :=
  match out with
  | None => None
  | Some out =>
      match t with
      | Tuple a =>
          match narrow_len_for_tuples n a negative k with
          | Crash => None
          | Instead ts => Some (fold_left join ts out)
          | Stays => Some (join out t)
          end
      | Class c _ =>
          match named_tuple c with
          | Some fields => Some (if eqb (matches_fixed_len fields n k) negative then out else join out t)
          | None => Some (join out t)
          end
      | _ => Some (join out t)
      end
  end.

Definition narrow_len_side (n : N) (k : len_narrowing) (negative : bool) (t : type) : option type :=
  fold_left (narrow_len_part n k negative) (parts t) (Some Never).

(** What a condition narrows to, if it narrows *)
Inductive narrowing := NotNarrowed | Narrowed (truthy falsey : type) | Crashed.

(** crates/zuban_python/src/file/flow_analysis.rs:5568-5621 [narrow_len]; [n] is an int literal *)
Definition narrow_len (n : Z) (k : len_narrowing) (t : type) : narrowing :=
  if (n <? 0)%Z then NotNarrowed
  else
    match narrow_len_side (Z.to_N n) k false t, narrow_len_side (Z.to_N n) k true t with
    | Some truthy, Some falsey => Narrowed truthy falsey
    | _, _ => Crashed
    end.

Definition swap (r : narrowing) : narrowing := match r with Narrowed t f => Narrowed f t | r => r end.

(** crates/zuban_python/src/file/flow_analysis.rs:4176-4290 [find_guards_in_comparisons] (one comparison),
    crates/zuban_python/src/file/flow_analysis.rs:5547-5555 [from_operand]: [len(x) op n], or [n op len(x)] where [len_is_right] *)
Definition narrow_len_comparison (len_is_right : bool) (op : operator) (n : Z) (t : type) : narrowing :=
  let ordering k := narrow_len n (if len_is_right then invert_len k else k) t in
  match op with
  | OpEq => narrow_len n Equals t
  | OpNe => swap (narrow_len n Equals t)
  | OpGt => ordering GreaterThan
  | OpLt => ordering LowerThan
  | OpGe => ordering GreaterEquals
  | OpLe => ordering LowerEquals
  end.
End Len.
