(** Joins and meets of types: crates/zuban_python/src/type_/common_base_type.rs, crates/zuban_python/src/type_/common_sub_type.rs.

    The types are those of [SubtypeModel]; callables, named tuples, TypedDicts, [TypeForm], recursive aliases and unknown type parameters
    are left out, literals are explicit ones, and a match with Any counts as one without.  Parameters are [==] of types and the simplified
    union of two types (crates/zuban_python/src/type_/union.rs:17-28). *)
From Coq Require Import List NArith Bool.
From Verif Require Import TupleModel SubtypeModel.
Import ListNotations.
Open Scope N_scope.

(** What a step gives: nothing if there are more steps to make than allowed, otherwise a type or the go on to the next attempt *)
Definition attempt := option (option type).

(** A loop that returns with the first success *)
Fixpoint first_of {A} (f : A -> attempt) (l : list A) : attempt :=
  match l with
  | [] => Some None
  | x :: l => match f x with Some None => first_of f l | a => a end
  end.

Definition or_try (a b : attempt) : attempt := match a with Some None => b | _ => a end.

(** [collect::<Option<_>>] and the loops that give up with [?] *)
Fixpoint collect {A} (f : A -> attempt) (l : list A) : option (option (list type)) :=
  match l with
  | [] => Some (Some [])
  | x :: l => match f x with
              | Some (Some t) => match collect f l with Some (Some ts) => Some (Some (t :: ts)) | r => r end
              | Some None => Some None
              | None => None
              end
  end.

Definition and_then {A} (a : option (option A)) (f : A -> type) : attempt := option_map (option_map f) a.

Section Joins.
Variables (p : program) (equal : type -> type -> bool) (simplified_union : type -> type -> type).

Definition is_object (t : type) : bool := match t with Class c _ => c =? object p | _ => false end.
Definition is_never (t : type) : bool := match t with Never => true | _ => false end.

(** Is [t1] a subtype of [t2], have they the same values, with a number of steps
    crates/zuban_python/src/type_/matching.rs:295-297 [is_simple_sub_type_of] and crates/zuban_python/src/type_/matching.rs:466-468 [is_simple_same_type] *)
Definition simple_sub_type (fuel : nat) (t1 t2 : type) : option bool := option_map holds (run p fuel (Matches Contravariant false t1 t2)).
Definition simple_same_type (fuel : nat) (t1 t2 : type) : option bool := option_map holds (run p fuel (Matches Invariant false t1 t2)).

(** One more entry of a union, if it is new *)
Definition push (ts : list type) (t : type) : list type := if existsb (fun s => equal s t) ts then ts else ts ++ [t].

(** crates/zuban_python/src/type_/mod.rs:1066-1130 [union], without the order of the entries *)
Definition union (t1 t2 : type) : type :=
  match t1 with
  | Union us =>
      match t2 with
      | Union vs => Union (fold_left push vs us)
      | Never => Union us
      | _ => Union (push us t2)
      end
  | Never => t2
  | _ =>
      match t2 with
      | Union vs => Union (push vs t1)
      | _ => if equal t1 t2 || is_never t2 then t1 else Union [t1; t2]
      end
  end.

(** ** Meets *)
Section Meet.
Variable meet : type -> type -> attempt.
Variable sub : type -> type -> option bool.

(** crates/zuban_python/src/type_/common_sub_type.rs:242-258 [common_sub_type_for_union] *)
Fixpoint meet_members (ts : list type) (other : type) (result : option type) : attempt :=
  match ts with
  | [] => Some result
  | t :: ts =>
      match meet t other with
      | None => None
      | Some None => meet_members ts other result
      | Some (Some found) => meet_members ts other (Some match result with Some r => union r found | None => found end)
      end
  end.

Definition meet_pair (x : type * type) : attempt := meet (fst x) (snd x).

(** crates/zuban_python/src/type_/common_sub_type.rs:55-120 [common_sub_type] of tuples *)
Definition meet_args (a1 a2 : args type) : attempt :=
  match a1, a2 with
  | FixedLen ts1, FixedLen ts2 =>
      if negb (Nat.eqb (length ts1) (length ts2)) then Some None
      else and_then (collect meet_pair (combine ts1 ts2)) (fun ts => Tuple (FixedLen ts))
  | ArbitraryLen t1, ArbitraryLen t2 => and_then (meet t1 t2) (fun t => Tuple (ArbitraryLen t))
  | ArbitraryLen t, FixedLen ts | FixedLen ts, ArbitraryLen t => and_then (collect (fun s => meet s t) ts) (fun ts => Tuple (FixedLen ts))
  | FixedLen ts, WithUnpack w | WithUnpack w, FixedLen ts =>
      if Nat.ltb (length ts) (length (before w) + length (after w)) then Some None
      else match middle w with
           | TypeVarTuple _ => Some None
           | Many t =>
               and_then (collect meet_pair (combine ts (before w ++ repeat t (length ts - (length (before w) + length (after w))) ++ after w)))
                 (fun ts => Tuple (FixedLen ts))
           end
  | WithUnpack w, ArbitraryLen t | ArbitraryLen t, WithUnpack w =>
      match collect (fun s => meet s t) (before w), middle w with
      | Some (Some b), TypeVarTuple _ => Some None
      | Some (Some b), Many s =>
          match meet s t with
          | Some (Some m) => and_then (collect (fun s => meet s t) (after w)) (fun a => Tuple (WithUnpack (mk_unpack b (Many m) a)))
          | Some None => Some None
          | None => None
          end
      | Some None, _ => Some None
      | None, _ => None
      end
  | WithUnpack w1, WithUnpack w2 => if equal (Tuple a1) (Tuple a2) then Some (Some (Tuple a1)) else Some None
  end.

(** crates/zuban_python/src/type_/common_sub_type.rs:16-51 [common_sub_type] *)
Definition meet_step (t1 t2 : type) : attempt :=
  let smaller :=
    match sub t1 t2 with
    | Some true => Some (Some t1)
    | Some false => match sub t2 t1 with Some true => Some (Some t2) | Some false => Some None | None => None end
    | None => None
    end in
  match t1, t2 with
  | Union ts, _ => meet_members ts t2 None
  | _, Union ts => meet_members ts t1 None
  | Tuple a1, Tuple a2 => meet_args a1 a2
  | Any, _ => Some (Some t2)
  | _, Any => Some (Some t1)
  | TypeOf s1, TypeOf s2 =>
      and_then (meet s1 s2) (fun new => if equal new s1 then t1 else if equal new s2 then t2 else TypeOf new)
  | _, _ => smaller
  end.
End Meet.

Fixpoint common_sub_type (fuel : nat) (t1 t2 : type) : attempt :=
  match fuel with
  | O => None
  | S fuel => meet_step (common_sub_type fuel) (simple_sub_type fuel) t1 t2
  end.

(** ** Joins *)

(** crates/zuban_python/src/type_/common_base_type.rs:161-175 [check_promotion] *)
Fixpoint promoted (fuel : nat) (c other : N) : attempt :=
  match fuel with
  | O => None
  | S fuel =>
      match promote_to p c with
      | Some d => if d =? other then Some (Some (Class d [])) else promoted fuel d other
      | None => Some None
      end
  end.

Section Join.
Variable join : type -> type -> option type.
Variable meet : type -> type -> attempt.
Variable same : type -> type -> option bool.
Variable promote : N -> N -> attempt.

Definition always (a : option type) : attempt := option_map Some a.

(** A type argument in crates/zuban_python/src/type_/common_base_type.rs:209-242 (common_base_class_basic) *)
Definition join_argument (x : type * type * variance) : attempt :=
  let '(t1, t2, v) := x in
  match v with
  | Invariant => option_map (fun b : bool => if b then Some t1 else None) (same t1 t2)
  | Covariant => always (join t1 t2)
  | Contravariant => meet t1 t2
  end.

(** crates/zuban_python/src/type_/common_base_type.rs:188-268 [common_base_class_basic] *)
Definition common_base_class_basic (c1 : N) (gs1 : list type) (c2 : N) (gs2 : list type) : attempt :=
  if negb (c1 =? c2) then Some None
  else match variances p c1 with
       | [] => Some (Some (Class c1 gs1))
       | vs => and_then (collect join_argument (zip3 gs1 gs2 vs)) (Class c1)
       end.

(** crates/zuban_python/src/type_/common_base_type.rs:177-186 [common_base_class] *)
Definition common_base_class (c1 : N) (gs1 : list type) (c2 : N) (gs2 : list type) : attempt :=
  or_try (or_try (common_base_class_basic c1 gs1 c2 gs2) (promote c1 c2)) (promote c2 c1).

(** crates/zuban_python/src/type_/common_base_type.rs:598-612 [common_base_type_from_iterator] *)
Fixpoint join_from (t : type) (ts : list type) : option type :=
  match ts with
  | [] => Some t
  | s :: ts => match join t s with Some r => join_from r ts | None => None end
  end.
Definition join_all (ts : list type) : option type := match ts with [] => Some Never | t :: ts => join_from t ts end.

Fixpoint join_pairs (ts us : list type) : option (list type) :=
  match ts, us with
  | t :: ts, u :: us => match join t u, join_pairs ts us with Some r, Some rs => Some (r :: rs) | _, _ => None end
  | _, _ => Some []
  end.

Definition union_pairs (ts us : list type) : list type := map (fun x => simplified_union (fst x) (snd x)) (combine ts us).

Definition is_any_unpack (u : @unpack type) : bool := match u with Many Any => true | _ => false end.
Definition join_unpack (u1 u2 : @unpack type) : @unpack type :=
  let other := if is_any_unpack u1 then u1 else if is_any_unpack u2 then u2 else Many (Class (object p) []) in
  match u1, u2 with
  | Many t1, Many t2 => Many (simplified_union t1 t2)
  | TypeVarTuple n, TypeVarTuple m => if n =? m then u1 else other
  | _, _ => other
  end.

Definition is_any_args (a : args type) : bool := match a with ArbitraryLen Any => true | _ => false end.

(** crates/zuban_python/src/type_/common_base_type.rs:615-701 [common_base_type] of tuples *)
Definition join_args (a1 a2 : args type) : option type :=
  let arbitrary := option_map (fun t => Tuple (ArbitraryLen t)) in
  let entries_of_both := arbitrary (Some (simplified_union (entries p a1) (entries p a2))) in
  if equal (Tuple a1) (Tuple a2) then Some (Tuple a1)
  else if is_any_args a1 then Some (Tuple a1)
  else if is_any_args a2 then Some (Tuple a2)
  else match a1, a2 with
       | FixedLen ts1, FixedLen ts2 =>
           if Nat.eqb (length ts1) (length ts2) then option_map (fun ts => Tuple (FixedLen ts)) (join_pairs ts1 ts2)
           else arbitrary (join_all (ts1 ++ ts2))
       | ArbitraryLen t1, ArbitraryLen t2 => arbitrary (join t1 t2)
       | ArbitraryLen t, FixedLen ts | FixedLen ts, ArbitraryLen t => arbitrary (join_all (t :: ts))
       | WithUnpack w1, WithUnpack w2 =>
           if Nat.eqb (length (before w1)) (length (before w2)) && Nat.eqb (length (after w1)) (length (after w2)) then
             Some (Tuple (WithUnpack (mk_unpack (union_pairs (before w1) (before w2)) (join_unpack (middle w1) (middle w2)) (union_pairs (after w1) (after w2)))))
           else entries_of_both
       | _, _ => entries_of_both
       end.

(** crates/zuban_python/src/type_/common_base_type.rs:270-332 [common_base_type_for_non_class] *)
Definition common_base_type_for_non_class (t1 t2 : type) : attempt :=
  match t1 with
  | Tuple a1 => match t2 with Tuple a2 => always (join_args a1 a2) | _ => Some None end
  | TypeOf s1 => match t2 with TypeOf s2 => always (option_map TypeOf (join s1 s2)) | _ => Some None end
  | _ => option_map (fun b : bool => if b then Some t1 else None) (same t1 t2)
  end.

Definition is_protocol_type (t : type) : bool := match t with Class c _ | Dataclass c _ => is_protocol p c | _ => false end.

(** Two entries of the orders, crates/zuban_python/src/type_/common_base_type.rs:108-135 (common_base_type_internal) *)
Definition join_entries (self other c1 c2 : type) : attempt :=
  match c1, c2 with
  | Class d1 gs1, Class d2 gs2 =>
      match common_base_class d1 gs1 d2 gs2 with
      | Some (Some t) => if is_object c1 && (is_protocol_type self || is_protocol_type other) then Some None else Some (Some t)
      | a => a
      end
  | Class _ _, _ | _, Class _ _ => Some None
  | _, _ => common_base_type_for_non_class c1 c2
  end.

(** The closure [check_both_sides] in crates/zuban_python/src/type_/common_base_type.rs:55-100 (common_base_type_internal) *)
Definition check_both_sides (self other t1 t2 : type) (is_reverse : bool) : attempt :=
  match t1 with
  | NoneType | Union _ => Some (Some (if is_object other then other else simplified_union self other))
  | Any => Some (Some Any)
  | Never => Some (Some t2)
  | EnumMember _ _ =>
      match t2 with
      | EnumMember _ _ | Enum _ => Some (Some (if is_reverse then simplified_union t2 t1 else simplified_union t1 t2))
      | _ => Some None
      end
  | LiteralString => match t2 with LiteralString => Some None | _ => always (join (Class (str_class p) []) t2) end
  | _ => Some None
  end.

(** A protocol that the other type implements *)
Definition implemented (t other : type) : attempt :=
  Some match t with Class c gs => if is_protocol p c && holds (check_protocol p c gs other) then Some t else None | _ => None end.

(** crates/zuban_python/src/type_/common_base_type.rs:41-154 [common_base_type_internal], behind the check for a cycle *)
Definition join_step (t1 t2 : type) : option type :=
  let found :=
    or_try (check_both_sides t1 t2 t1 t2 false)
   (or_try (check_both_sides t1 t2 t2 t1 true)
   (or_try (first_of (fun c1 => first_of (join_entries t1 t2 c1) (mro p t2)) (mro p t1))
   (or_try (implemented t1 t2) (implemented t2 t1)))) in
  match found with
  | Some (Some t) => Some t
  | Some None => Some (Class (object p) [])
  | None => None
  end.
End Join.

(** crates/utils/src/lib.rs:180-183 [is_cycle] *)
Definition is_cycle (previous : list (type * type)) (t1 t2 : type) : bool := existsb (fun q => equal (fst q) t1 && equal (snd q) t2) previous.

Fixpoint common_base_type_internal (fuel : nat) (previous : list (type * type)) (t1 t2 : type) : option type :=
  match fuel with
  | O => None
  | S fuel =>
      if is_cycle previous t1 t2 then Some (Class (object p) [])
      else join_step (common_base_type_internal fuel ((t1, t2) :: previous)) (common_sub_type fuel) (simple_same_type fuel) (promoted fuel) t1 t2
  end.

(** crates/zuban_python/src/type_/common_base_type.rs:37-39 [common_base_type] *)
Definition common_base_type (fuel : nat) (t1 t2 : type) : option type := common_base_type_internal fuel [] t1 t2.

(** crates/zuban_python/src/type_/common_base_type.rs:24-35 [gather_types_maybe_with_joins] *)
Definition gather_types (use_joins : bool) (fuel : nat) (t1 t2 : type) : option type :=
  if use_joins then common_base_type fuel t1 t2 else Some (simplified_union t1 t2).

(** The items of a list or set display, by their types: crates/zuban_python/src/file/utils.rs:60-103 [create_list_or_set_generics], without
    implicit literals and None in untyped code *)
Definition display (use_joins : bool) (fuel : nat) (ts : list type) : option type := join_all (gather_types use_joins fuel) ts.
End Joins.
